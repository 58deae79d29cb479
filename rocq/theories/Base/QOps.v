(** * An executable instance, used only to run the model on concrete inputs
    in the non-vacuity examples: rationals plus NaN ([None]).  Powers with a
    non-integer exponent, logarithms and trigonometry give NaN. *)
From Verif Require Import Base.Num.
From Coq Require Qabs.

Definition q2 (f : Q -> Q -> Q) (a b : option Q) : option Q :=
  match a, b with Some x, Some y => Some (Qred (f x y)) | _, _ => None end.
Definition qcmp (f : Q -> Q -> bool) (a b : option Q) : bool :=
  match a, b with Some x, Some y => f x y | _, _ => false end.
Definition qltb (x y : Q) : bool := negb (Qle_bool y x).
Definition qdiv (a b : option Q) : option Q :=
  match b with Some y => if Qeq_bool y 0 then None else q2 Qdiv a b | None => None end.
Definition qpow (a b : option Q) : option Q :=
  match a, b with
  | Some x, Some y => if Pos.eqb (Qden (Qred y)) 1
                      then Some (Qred (Qpower x (Qnum (Qred y)))) else None
  | _, _ => None end.
Definition qtrunc (a : option Q) : option Q :=
  match a with Some x => Some (inject_Z (Z.quot (Qnum x) (Zpos (Qden x)))) | None => None end.

#[export] Instance q_ops : FloatOps (option Q) := {|
  fadd := q2 Qplus; fsub := q2 Qminus; fmul := q2 Qmult; fdiv := qdiv; fpow := qpow;
  fabs := option_map Qabs.Qabs; fsqrt := fun _ => None; flog10 := fun _ => None;
  flog := fun _ => None; fsin := fun _ => None; fcos := fun _ => None;
  fasin := fun _ => None; fpi := Some (Qmake 355 113); fnan := None;
  flt := qcmp qltb; fle := qcmp Qle_bool; feq := qcmp Qeq_bool; flit := fun q => Some q;
  ftrunc := qtrunc; f32 := fun x => x; fnp := fun x => x |}.

(** a ray of numbers *)
Definition qs (l : list Q) : list (option Q) := map Some l.
Definition qarr (l : list Q) : arr (option Q) := mkarr DFloat [List.length l] (qs l).
