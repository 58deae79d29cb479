(** Facts about the list primitives of [Base.Num]. *)
From Verif Require Import Base.Num.
From Coq Require Import Arith.
Set Implicit Arguments.

Lemma map2_length {A B C} (f : A -> B -> C) a b :
  length (map2 f a b) = Nat.min (length a) (length b).
Proof. revert b; induction a as [|x a IH]; intros [|y b]; simpl; auto. Qed.

Lemma map2_nth_error {A B C} (f : A -> B -> C) a b i :
  nth_error (map2 f a b) i =
  match nth_error a i, nth_error b i with
  | Some x, Some y => Some (f x y) | _, _ => None end.
Proof.
  revert b i; induction a as [|x a IH]; intros [|y b] [|i]; simpl; auto.
  - destruct (nth_error a i); auto.
Qed.

Lemma map_nth_error' {A B} (f : A -> B) a i :
  nth_error (map f a) i =
  match nth_error a i with Some x => Some (f x) | None => None end.
Proof. revert i; induction a; intros [|i]; simpl; auto. Qed.

Lemma map3_nth_error {A B C D} (f : A -> B -> C -> D) a b c i :
  nth_error (map3 f a b c) i =
  match nth_error a i, nth_error b i, nth_error c i with
  | Some x, Some y, Some z => Some (f x y z) | _, _, _ => None end.
Proof.
  unfold map3; rewrite map2_nth_error, map2_nth_error.
  destruct (nth_error a i), (nth_error b i), (nth_error c i); auto.
Qed.

Lemma mset_nth_error {A} m (v x : list A) i :
  nth_error (mset m v x) i =
  match nth_error m i, nth_error v i, nth_error x i with
  | Some b, Some n, Some o => Some (if (b : bool) then n else o) | _, _, _ => None end.
Proof. apply map3_nth_error. Qed.

Lemma msetc_nth_error {A} m (c : A) (x : list A) i :
  nth_error (msetc m c x) i =
  match nth_error m i, nth_error x i with
  | Some b, Some o => Some (if (b : bool) then c else o) | _, _ => None end.
Proof. apply map2_nth_error. Qed.

Lemma land_nth_error a b i :
  nth_error (land a b) i =
  match nth_error a i, nth_error b i with
  | Some x, Some y => Some (x && y) | _, _ => None end.
Proof. apply map2_nth_error. Qed.

Lemma lor_nth_error a b i :
  nth_error (lor a b) i =
  match nth_error a i, nth_error b i with
  | Some x, Some y => Some (x || y) | _, _ => None end.
Proof. apply map2_nth_error. Qed.

Lemma lnot_nth_error a i :
  nth_error (lnot a) i =
  match nth_error a i with Some x => Some (negb x) | None => None end.
Proof. apply map_nth_error'. Qed.

Lemma repeat_nth_error {A} (x : A) n i :
  nth_error (repeat x n) i = if (i <? n)%nat then Some x else None.
Proof. revert i; induction n; intros [|i]; simpl; auto. rewrite IHn. reflexivity. Qed.

(** Pointwise characterisation: two lists with the same nth_error are equal. *)
Lemma nth_error_ext {A} (l l' : list A) :
  (forall i, nth_error l i = nth_error l' i) -> l = l'.
Proof.
  revert l'; induction l as [|x l IH]; intros [|y l'] H; auto.
  - specialize (H O); discriminate.
  - specialize (H O); discriminate.
  - f_equal; [specialize (H O); simpl in H; congruence|].
    apply IH; intro i; apply (H (S i)).
Qed.

Lemma nth_error_map_some {A} (l : list A) i :
  (i < length l)%nat -> exists x, nth_error l i = Some x.
Proof. intro H. destruct (nth_error l i) eqn:E; eauto. apply nth_error_None in E; lia. Qed.

Lemma nth_error_lt {A} (l : list A) i x :
  nth_error l i = Some x -> (i < length l)%nat.
Proof. intro H; apply nth_error_Some; congruence. Qed.

Lemma forM_app {A S} (l1 l2 : list A) (body : A -> S -> res S) s :
  forM (l1 ++ l2) body s = bind (forM l1 body s) (forM l2 body).
Proof.
  revert s; induction l1 as [|x l1 IH]; intro s; simpl; auto.
  destruct (body x s); simpl; auto.
Qed.

(** Invariant rule for loops that return [Ok]. *)
Lemma forM_inv {A S} (P : S -> Prop) (l : list A) (body : A -> S -> res S) s s' :
  P s -> (forall x t t', In x l -> P t -> body x t = Ok t' -> P t') ->
  forM l body s = Ok s' -> P s'.
Proof.
  revert s; induction l as [|x l IH]; intros s Hs Hb H; simpl in H.
  - inversion H; subst; auto.
  - destruct (body x s) eqn:E; simpl in H; try discriminate.
    eapply IH; [| |exact H].
    + eapply Hb; eauto; now left.
    + intros; eapply Hb; eauto; now right.
Qed.

(** Loops whose body never fails. *)
Lemma forM_ok {A S} (P : S -> Prop) (l : list A) (body : A -> S -> res S) s :
  P s -> (forall x t, In x l -> P t -> exists t', body x t = Ok t' /\ P t') ->
  exists s', forM l body s = Ok s' /\ P s'.
Proof.
  revert s; induction l as [|x l IH]; intros s Hs Hb; simpl.
  - eauto.
  - destruct (Hb x s) as [t [E Ht]]; auto; [now left|].
    rewrite E; simpl. apply IH; auto. intros; apply Hb; auto; now right.
Qed.

Lemma zrange_aux_nth a n i :
  nth_error (zrange_aux a n) i = if (i <? n)%nat then Some (a + Z.of_nat i)%Z else None.
Proof.
  revert a i; induction n; intros a [|i]; simpl; auto.
  - f_equal; lia.
  - rewrite IHn. change (S i <? S n)%nat with (i <? n)%nat.
    destruct (i <? n)%nat; auto. f_equal; lia.
Qed.

Lemma zrange_aux_length a n : length (zrange_aux a n) = n.
Proof. revert a; induction n; simpl; auto. Qed.

Lemma zrange_aux_In a n x :
  In x (zrange_aux a n) <-> (a <= x < a + Z.of_nat n)%Z.
Proof. revert a; induction n as [|n IH]; intros a; simpl; [|rewrite IH]; lia. Qed.

Lemma zrange_In a b x : In x (zrange a b) <-> (a <= x < b)%Z.
Proof. unfold zrange; rewrite zrange_aux_In. lia. Qed.

Lemma zrange_length a b : length (zrange a b) = Z.to_nat (b - a).
Proof. apply zrange_aux_length. Qed.

Lemma shape_eqb_eq a b : shape_eqb a b = true <-> a = b.
Proof. unfold shape_eqb; destruct list_eq_dec; split; congruence. Qed.

Lemma shape_eqb_refl a : shape_eqb a a = true.
Proof. now apply shape_eqb_eq. Qed.

Lemma nth_error_length_eq {A B} (a : list A) (b : list B) i x :
  length a = length b -> nth_error a i = Some x -> exists y, nth_error b i = Some y.
Proof.
  intros H E; apply nth_error_lt in E. rewrite H in E.
  now apply nth_error_map_some.
Qed.
