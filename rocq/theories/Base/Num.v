(** * Numbers, Python results and numpy array primitives shared by the model.

    Every model function is polymorphic in a type [F] of floats with a
    [FloatOps F] structure.  No law is assumed of these operations: a theorem
    proved for all [F] holds for IEEE binary64 (or binary32) with any libm. *)
From Coq Require Export String ZArith QArith Bool List Lia.
Export ListNotations.
Global Close Scope Q_scope.
Global Open Scope nat_scope.

Set Implicit Arguments.

(** ** Floats *)
Class FloatOps (F : Type) := {
  fadd : F -> F -> F;            (* x + y   *)
  fsub : F -> F -> F;            (* x - y   *)
  fmul : F -> F -> F;            (* x * y   *)
  fdiv : F -> F -> F;            (* numpy x / y: never raises *)
  fpow : F -> F -> F;            (* x ** y  *)
  fabs : F -> F;                 (* np.abs  *)
  fsqrt : F -> F;                (* np.sqrt *)
  flog10 : F -> F;               (* np.log10 *)
  flog : F -> F;                 (* np.log *)
  fsin : F -> F;
  fcos : F -> F;
  fasin : F -> F;
  fpi : F;                       (* np.pi *)
  fnan : F;                      (* np.nan *)
  flt : F -> F -> bool;          (* x < y,  false if either is NaN *)
  fle : F -> F -> bool;          (* x <= y, false if either is NaN *)
  feq : F -> F -> bool;          (* x == y, false if either is NaN *)
  flit : Q -> F;                 (* a decimal literal of the source *)
  ftrunc : F -> F;               (* value stored when assigned into an int array *)
  f32 : F -> F;                  (* value stored when assigned into a float32 *)
  fnp : F -> F                   (* rounding of float32 array with np.float64 scalar:
                                    float32 in NumPy 1, none (float64) in NumPy 2 *)
}.

Arguments flit {F _} q%Q.
Arguments fnan {F _}. Arguments fpi {F _}.

Declare Scope fl_scope.
Delimit Scope fl_scope with fl.
Infix "+" := fadd : fl_scope.
Infix "-" := fsub : fl_scope.
Infix "*" := fmul : fl_scope.
Infix "/" := fdiv : fl_scope.
Infix "**" := fpow (at level 30, right associativity) : fl_scope.
Infix "<?" := flt : fl_scope.
Infix "<=?" := fle : fl_scope.
Infix "==?" := feq (at level 70) : fl_scope.
Notation "x >? y" := (flt y x) : fl_scope.
Notation "x >=? y" := (fle y x) : fl_scope.
Notation "x !=? y" := (negb (feq x y)) (at level 70) : fl_scope.
Notation "# q" := (flit q) (at level 5, q at level 0) : fl_scope.

(** np.isnan(x) is x != x. *)
Definition fisnan {F} `{FloatOps F} (x : F) : bool := negb (feq x x).

(** ** Python results *)
Inductive exn :=
  | NameError | TypeError | ValueError | IndexError | AttributeError
  | UnboundLocalError | ZeroDivisionError | KeyError.

Inductive res (A : Type) :=
  | Ok (a : A)              (* returned a *)
  | PyNone                  (* returned None *)
  | Raise (e : exn)         (* raised *)
  | Fault                   (* C undefined behaviour: out-of-bounds access *)
  | Unmodelled.             (* input outside the model (e.g. broadcasting) *)
Arguments Ok {A} a. Arguments PyNone {A}. Arguments Raise {A} e.
Arguments Fault {A}. Arguments Unmodelled {A}.

Definition bind {A B} (x : res A) (k : A -> res B) : res B :=
  match x with
  | Ok a => k a | PyNone => PyNone | Raise e => Raise e
  | Fault => Fault | Unmodelled => Unmodelled
  end.
Notation "x <- e ;; k" := (bind e (fun x => k))
  (at level 61, e at next level, right associativity).
Notation "' p <- e ;; k" := (bind e (fun p => k))
  (at level 61, p pattern, e at next level, right associativity).

(** [for x in l: s = body(x, s)] with exceptions. *)
Fixpoint forM {A S} (l : list A) (body : A -> S -> res S) (s : S) : res S :=
  match l with
  | [] => Ok s
  | x :: r => s' <- body x s ;; forM r body s'
  end.

(** ** Arrays: elementwise numpy operations on equally long data *)
Fixpoint map2 {A B C} (f : A -> B -> C) (a : list A) (b : list B) : list C :=
  match a, b with
  | x :: a', y :: b' => f x y :: map2 f a' b'
  | _, _ => []
  end.

Definition map3 {A B C D} (f : A -> B -> C -> D)
  (a : list A) (b : list B) (c : list C) : list D :=
  map2 (fun g z => g z) (map2 f a b) c.

(** np.logical_and, np.logical_or, ~ on boolean arrays. *)
Definition land (a b : list bool) : list bool := map2 andb a b.
Definition lor (a b : list bool) : list bool := map2 orb a b.
Definition lnot (a : list bool) : list bool := map negb a.

(** [x[mask] = v[mask]]: elements of [v] where the mask holds. *)
Definition mset {A} (mask : list bool) (v x : list A) : list A :=
  map3 (fun (b : bool) n o => if b then n else o) mask v x.

(** [x[mask] = c] with a scalar. *)
Definition msetc {A} (mask : list bool) (c : A) (x : list A) : list A :=
  map2 (fun (b : bool) o => if b then c else o) mask x.

(** [x[mask]]: selection. *)
Fixpoint msel {A} (mask : list bool) (x : list A) : list A :=
  match mask, x with
  | b :: m, y :: r => if b then y :: msel m r else msel m r
  | _, _ => []
  end.

(** Python range(a, b). *)
Fixpoint zrange_aux (a : Z) (n : nat) : list Z :=
  match n with O => [] | S k => a :: zrange_aux (a + 1) k end.
Definition zrange (a b : Z) : list Z := zrange_aux a (Z.to_nat (b - a)).

(** dtype of an ndarray, as far as it changes what a masked assignment stores. *)
Inductive dtype := DInt | DFloat.

(** The value stored by [x[..] = v] for an array of dtype [d]. *)
Definition cast {F} `{FloatOps F} (d : dtype) (v : F) : F :=
  match d with DInt => ftrunc v | DFloat => v end.

Record arr (F : Type) := mkarr { adt : dtype; ashape : list nat; adata : list F }.
Arguments mkarr {F}. Arguments adt {F}. Arguments ashape {F}. Arguments adata {F}.

Definition prod (l : list nat) : nat := fold_right Nat.mul 1%nat l.

(** Well-formed ndarray: as many elements as the shape says. *)
Definition arr_ok {F} (a : arr F) : Prop := List.length (adata a) = prod (ashape a).

Definition shape_eqb (a b : list nat) : bool :=
  if list_eq_dec Nat.eq_dec a b then true else false.

(** A Python argument that may be None, a number (no __len__) or an ndarray. *)
Inductive pyarg (F : Type) :=
  | ANone
  | AScalar (d : dtype) (x : F)
  | AArr (a : arr F).
Arguments ANone {F}. Arguments AScalar {F}. Arguments AArr {F}.

(** What a function returns to the caller: a number or an ndarray. *)
Inductive pyret (A : Type) := RScalar (x : A) | RArr (shape : list nat) (d : list A).
Arguments RScalar {A}. Arguments RArr {A}.

(** [np.array([x])]. *)
Definition arr1 {F} (d : dtype) (x : F) : arr F := mkarr d [1%nat] [x].

(** x[0] of a 1-element result. *)
Definition elem0 {A} (l : list A) : res (pyret A) :=
  match l with x :: _ => Ok (RScalar x) | [] => Raise IndexError end.
