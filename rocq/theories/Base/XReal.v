(** * Extended reals: the arithmetic instance of the model.

    Exact real arithmetic plus +inf, -inf, NaN with the IEEE-754 / C99 rules
    for those special values.  No rounding, overflow, underflow, signed zero
    (x / 0 takes the zero to be +0). *)
From Verif Require Import Base.Num.
From Coq Require Import Reals Lra.
Open Scope R_scope.

Inductive xr := Fin (r : R) | PInf | NInf | NaN.

Definition Rltb (a b : R) : bool := if Rlt_dec a b then true else false.
Definition Rleb (a b : R) : bool := if Rle_dec a b then true else false.
Definition Reqb (a b : R) : bool := if Req_EM_T a b then true else false.

Definition xneg (a : xr) : xr :=
  match a with Fin r => Fin (- r) | PInf => NInf | NInf => PInf | NaN => NaN end.
Definition xadd (a b : xr) : xr :=
  match a, b with
  | NaN, _ | _, NaN => NaN
  | PInf, NInf | NInf, PInf => NaN
  | PInf, _ | _, PInf => PInf
  | NInf, _ | _, NInf => NInf
  | Fin x, Fin y => Fin (x + y)
  end.
Definition xsub (a b : xr) : xr := xadd a (xneg b).

(** an infinity with the sign of [s]; NaN for 0 *)
Definition xinf (s : R) : xr :=
  if Rlt_dec 0 s then PInf else if Rlt_dec s 0 then NInf else NaN.
Definition xmul (a b : xr) : xr :=
  match a, b with
  | NaN, _ | _, NaN => NaN
  | Fin x, Fin y => Fin (x * y)
  | Fin x, PInf | PInf, Fin x => xinf x
  | Fin x, NInf | NInf, Fin x => xinf (- x)
  | PInf, PInf | NInf, NInf => PInf
  | PInf, NInf | NInf, PInf => NInf
  end.
Definition xdiv (a b : xr) : xr :=
  match a, b with
  | NaN, _ | _, NaN => NaN
  | Fin x, Fin y => if Req_EM_T y 0 then xinf x else Fin (x / y)
  | Fin _, (PInf | NInf) => Fin 0
  | PInf, Fin y => if Rlt_dec y 0 then NInf else PInf
  | NInf, Fin y => if Rlt_dec y 0 then PInf else NInf
  | (PInf | NInf), (PInf | NInf) => NaN
  end.

Definition is_int (y : R) : bool := Reqb (IZR (Int_part y)) y.

(** C99 pow on a finite base and a finite exponent *)
Definition xpow_fin (x y : R) : xr :=
  if Req_EM_T y 0 then Fin 1
  else if Rlt_dec 0 x then Fin (Rpower x y)
  else if Req_EM_T x 0 then (if Rlt_dec 0 y then Fin 0 else PInf)
  else if is_int y then Fin (powerRZ x (Int_part y))
  else NaN.
Definition xpow (a b : xr) : xr :=
  match a, b with
  | Fin x, Fin y => xpow_fin x y
  | _, Fin y =>
      if Req_EM_T y 0 then Fin 1 else
      match a with
      | PInf => if Rlt_dec 0 y then PInf else Fin 0
      | NInf =>
          if Rlt_dec 0 y
          then (if is_int y && Z.odd (Int_part y) then NInf else PInf)
          else Fin 0
      | _ => NaN
      end
  | Fin x, NaN => if Req_EM_T x 1 then Fin 1 else NaN
  | Fin x, PInf =>
      if Rlt_dec (Rabs x) 1 then Fin 0
      else if Rlt_dec 1 (Rabs x) then PInf else Fin 1
  | Fin x, NInf =>
      if Rlt_dec (Rabs x) 1 then PInf
      else if Rlt_dec 1 (Rabs x) then Fin 0 else Fin 1
  | NaN, _ | _, NaN => NaN
  | _, PInf => PInf
  | _, NInf => Fin 0
  end.
Definition xabs (a : xr) : xr :=
  match a with Fin r => Fin (Rabs r) | PInf | NInf => PInf | NaN => NaN end.
Definition xsqrt (a : xr) : xr :=
  match a with
  | Fin r => if Rlt_dec r 0 then NaN else Fin (sqrt r)
  | PInf => PInf | NInf | NaN => NaN end.
Definition xlog (a : xr) : xr :=
  match a with
  | Fin r => if Rlt_dec 0 r then Fin (ln r)
             else if Req_EM_T r 0 then NInf else NaN
  | PInf => PInf | NInf | NaN => NaN end.
Definition xlog10 (a : xr) : xr :=
  match a with
  | Fin r => if Rlt_dec 0 r then Fin (ln r / ln 10)
             else if Req_EM_T r 0 then NInf else NaN
  | PInf => PInf | NInf | NaN => NaN end.
Definition xtrig (f : R -> R) (a : xr) : xr :=
  match a with Fin r => Fin (f r) | _ => NaN end.
Definition xasin (a : xr) : xr :=
  match a with
  | Fin r => if Rle_dec (Rabs r) 1 then Fin (asin r) else NaN
  | _ => NaN end.
Definition xlt (a b : xr) : bool :=
  match a, b with
  | NaN, _ | _, NaN => false
  | Fin x, Fin y => Rltb x y
  | NInf, NInf | PInf, _ | _, NInf => false
  | NInf, _ | _, PInf => true
  end.
Definition xeq (a b : xr) : bool :=
  match a, b with
  | Fin x, Fin y => Reqb x y
  | PInf, PInf | NInf, NInf => true
  | _, _ => false
  end.
Definition xle (a b : xr) : bool :=
  match a, b with
  | NaN, _ | _, NaN => false
  | Fin x, Fin y => Rleb x y
  | NInf, _ | _, PInf => true
  | _, _ => false
  end.
Definition xlit (q : Q) : xr := Fin (IZR (Qnum q) / IZR (Zpos (Qden q))).
(** float -> integer: truncation toward zero; C leaves inf/NaN unspecified *)
Definition Rtrunc (r : R) : R :=
  if Rle_dec 0 r then IZR (Int_part r) else - IZR (Int_part (- r)).
Definition xtrunc (a : xr) : xr :=
  match a with Fin r => Fin (Rtrunc r) | _ => Fin 0 end.

#[export] Instance xr_ops : FloatOps xr := {|
  fadd := xadd; fsub := xsub; fmul := xmul; fdiv := xdiv; fpow := xpow;
  fabs := xabs; fsqrt := xsqrt; flog10 := xlog10; flog := xlog;
  fsin := xtrig sin; fcos := xtrig cos; fasin := xasin; fpi := Fin PI;
  fnan := NaN; flt := xlt; fle := xle; feq := xeq; flit := xlit;
  ftrunc := xtrunc; f32 := fun x => x; fnp := fun x => x |}.

(** ** Basic facts *)
Lemma Rltb_true a b : Rltb a b = true <-> a < b.
Proof. unfold Rltb; destruct Rlt_dec; split; intros; try discriminate; lra. Qed.
Lemma Rltb_false a b : Rltb a b = false <-> b <= a.
Proof. unfold Rltb; destruct Rlt_dec; split; intros; try discriminate; auto; lra. Qed.
Lemma Rleb_true a b : Rleb a b = true <-> a <= b.
Proof. unfold Rleb; destruct Rle_dec; split; intros; try discriminate; auto; lra. Qed.
Lemma Rleb_false a b : Rleb a b = false <-> b < a.
Proof. unfold Rleb; destruct Rle_dec; split; intros; try discriminate; auto; lra. Qed.
Lemma Reqb_true a b : Reqb a b = true <-> a = b.
Proof. unfold Reqb; destruct Req_EM_T; split; intros; try discriminate; auto; lra. Qed.
Lemma Reqb_false a b : Reqb a b = false <-> a <> b.
Proof. unfold Reqb; destruct Req_EM_T; split; intros; try discriminate; auto; contradiction. Qed.

Lemma Rltb_spec a b : Bool.reflect (a < b) (Rltb a b).
Proof. unfold Rltb; destruct Rlt_dec; constructor; auto. Qed.
Lemma Rleb_spec a b : Bool.reflect (a <= b) (Rleb a b).
Proof. unfold Rleb; destruct Rle_dec; constructor; auto. Qed.
Lemma Reqb_spec a b : Bool.reflect (a = b) (Reqb a b).
Proof. unfold Reqb; destruct Req_EM_T; constructor; auto. Qed.

Lemma xadd_fin a b : xadd (Fin a) (Fin b) = Fin (a + b). Proof. reflexivity. Qed.
Lemma xsub_fin a b : xsub (Fin a) (Fin b) = Fin (a - b). Proof. reflexivity. Qed.
Lemma xmul_fin a b : xmul (Fin a) (Fin b) = Fin (a * b). Proof. reflexivity. Qed.
Lemma xdiv_fin a b : b <> 0 -> xdiv (Fin a) (Fin b) = Fin (a / b).
Proof. intro H; simpl; destruct Req_EM_T; [contradiction|reflexivity]. Qed.
Lemma xpow_pos x y : 0 < x -> xpow (Fin x) (Fin y) = Fin (Rpower x y).
Proof.
  intro H; simpl; unfold xpow_fin. destruct Req_EM_T as [->|].
  - rewrite Rpower_O; auto.
  - destruct Rlt_dec; [reflexivity|contradiction].
Qed.
Lemma xlog10_pos x : 0 < x -> xlog10 (Fin x) = Fin (ln x / ln 10).
Proof. intro H; simpl; destruct Rlt_dec; [reflexivity|contradiction]. Qed.
Lemma xsqrt_pos x : 0 <= x -> xsqrt (Fin x) = Fin (sqrt x).
Proof. intro H; simpl; destruct Rlt_dec; [lra|reflexivity]. Qed.

Lemma Rpower_pos x y : 0 < Rpower x y.
Proof. apply exp_pos. Qed.

Lemma Int_part_IZR z : Int_part (IZR z) = z.
Proof.
  unfold Int_part. assert (H : (z + 1)%Z = up (IZR z)).
  { apply tech_up; rewrite plus_IZR; lra. }
  rewrite <- H. lia.
Qed.

Lemma is_int_IZR z : is_int (IZR z) = true.
Proof. unfold is_int; rewrite Int_part_IZR; apply Reqb_true; auto. Qed.

Lemma xpow_nat x (n : nat) : xpow (Fin x) (Fin (INR n)) = Fin (x ^ n).
Proof.
  simpl; unfold xpow_fin. destruct n as [|n].
  - simpl INR. destruct Req_EM_T; [simpl; auto|lra].
  - assert (Hn : 0 < INR (S n)) by (apply lt_0_INR; lia).
    destruct Req_EM_T; [lra|]. destruct Rlt_dec as [Hx|Hx].
    + rewrite Rpower_pow; auto.
    + destruct Req_EM_T as [->|Hx0].
      * destruct Rlt_dec; [|lra]. now rewrite pow_ne_zero by lia.
      * rewrite INR_IZR_INZ, is_int_IZR, Int_part_IZR. f_equal.
        rewrite <- pow_powerRZ. reflexivity.
Qed.

Lemma xr_fin_inj a b : Fin a = Fin b -> a = b. Proof. congruence. Qed.
