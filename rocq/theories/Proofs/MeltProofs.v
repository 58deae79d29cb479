(** csu_fhc_melt.py in exact arithmetic: median, RHI and PPI melting level. *)
From Coq Require Import Reals Lra Lia Permutation Sorted Arith.
From Verif Require Import Base.Num Base.ListFacts Base.XReal Base.XTac Base.Pointwise Base.XArith.
From Verif Require Import Model.Tables Model.Beta Model.TTraps Model.Hid Model.Melt Spec.MeltSpec.
Open Scope R_scope.

(** ** Sorting and the median *)
Fixpoint rinsert (x : R) (l : list R) : list R :=
  match l with [] => [x] | y :: r => if Rleb x y then x :: l else y :: rinsert x r end.
Definition rsort (l : list R) : list R := fold_right rinsert [] l.

Lemma finsert_fin x l : finsert (Fin x) (map Fin l) = map Fin (rinsert x l).
Proof.
  induction l as [|y l IH]; auto. cbn [map finsert rinsert]. rewrite fle_fin.
  destruct (Rleb x y); auto. now rewrite IH.
Qed.
Lemma fsort_fin l : fsort (map Fin l) = map Fin (rsort l).
Proof. induction l; auto. unfold fsort in *. simpl. now rewrite IHl, finsert_fin. Qed.

Lemma rinsert_perm x l : Permutation (x :: l) (rinsert x l).
Proof.
  induction l as [|y l IH]; simpl; auto. destruct (Rleb x y); auto.
  rewrite perm_swap. now constructor.
Qed.
Lemma rsort_perm l : Permutation l (rsort l).
Proof. induction l; simpl; auto. rewrite <- rinsert_perm. now constructor. Qed.
Lemma rinsert_sorted x l : StronglySorted Rle l -> StronglySorted Rle (rinsert x l).
Proof.
  induction 1 as [|y l S IH A]; simpl; [repeat constructor|].
  destruct (Rleb_spec x y).
  - constructor; [now constructor|]. constructor; auto. rewrite Forall_forall in *.
    intros z Hz. specialize (A z Hz). lra.
  - constructor; auto. rewrite Forall_forall in *. intros z Hz.
    apply (Permutation_in _ (Permutation_sym (rinsert_perm x l))) in Hz.
    destruct Hz as [<-|Hz]; [lra|]. now apply A.
Qed.
Lemma rsort_sorted l : StronglySorted Rle (rsort l).
Proof. induction l; simpl; [constructor|]. now apply rinsert_sorted. Qed.
Lemma rsort_len l : length (rsort l) = length l.
Proof. symmetry. apply Permutation_length, rsort_perm. Qed.

Definition rmedian (l : list R) : R :=
  (nth ((length l - 1) / 2) (rsort l) 0 + nth (length l / 2) (rsort l) 0) / 2.
Lemma rmedian_is l : is_median l (rmedian l).
Proof. exists (rsort l). split; [apply rsort_perm|]. split; [apply rsort_sorted|reflexivity]. Qed.

Lemma no_nan l : existsb fisnan (map Fin l) = false.
Proof.
  induction l as [|x l IH]; auto. cbn [map existsb]. rewrite IH, orb_false_r.
  unfold fisnan. rewrite feq_fin. assert (Reqb x x = true) as -> by now apply Reqb_true. reflexivity.
Qed.
Lemma all_finite l : forallb finite (map Fin l) = true.
Proof.
  induction l as [|x l IH]; auto. cbn [map forallb]. rewrite IH, andb_true_r.
  unfold finite, fisnan. rewrite fsub_fin, feq_fin.
  assert (Reqb (x - x) (x - x) = true) as -> by now apply Reqb_true. reflexivity.
Qed.

Lemma odd_half n : Nat.odd n = true -> ((n - 1) / 2 = n / 2)%nat.
Proof.
  intro H. apply Nat.odd_spec in H as (k & ->). replace (2 * k + 1 - 1)%nat with (k * 2)%nat by lia.
  rewrite Nat.div_mul by lia. replace (2 * k + 1)%nat with (1 + k * 2)%nat by lia.
  rewrite Nat.div_add by lia. reflexivity.
Qed.

Lemma np_median_fin l : l <> [] -> np_median (map Fin l) = Fin (rmedian l).
Proof.
  intro N. unfold np_median. rewrite no_nan, fsort_fin, map_length. cbv zeta.
  assert (L : (length l <> 0)%nat) by (destruct l; [contradiction|discriminate]).
  assert (H1 : ((length l - 1) / 2 < length (rsort l))%nat).
  { rewrite rsort_len. apply Nat.div_lt_upper_bound; lia. }
  assert (H2 : (length l / 2 < length (rsort l))%nat).
  { rewrite rsort_len. apply Nat.div_lt_upper_bound; lia. }
  rewrite !map_nth_error', (nth_error_nth' _ 0 H1), (nth_error_nth' _ 0 H2). simpl option_map.
  unfold rmedian. destruct (Nat.odd (length l)) eqn:O.
  - rewrite (odd_half _ O). f_equal. lra.
  - rewrite fadd_fin, lit_int, fdiv_fin by lra. reflexivity.
Qed.

(** the median lies between the extremes *)
Lemma median_between l m lo hi : is_median l m -> l <> [] -> (forall x, In x l -> lo <= x <= hi) -> lo <= m <= hi.
Proof.
  intros (s & P & S & ->) N B.
  assert (L : (length l <> 0)%nat) by (destruct l; [contradiction|discriminate]).
  pose proof (Permutation_length P) as Ls.
  assert (G : forall k, (k < length l)%nat -> lo <= nth k s 0 <= hi).
  { intros k Hk. apply B. apply (Permutation_in _ (Permutation_sym P)). apply nth_In. lia. }
  pose proof (G ((length l - 1) / 2)%nat ltac:(apply Nat.div_lt_upper_bound; lia)).
  pose proof (G (length l / 2)%nat ltac:(apply Nat.div_lt_upper_bound; lia)). lra.
Qed.

(** a median is unique *)
Lemma sorted_unique (s s' : list R) : Permutation s s' -> StronglySorted Rle s -> StronglySorted Rle s' -> s = s'.
Proof.
  revert s'; induction s as [|x s IH]; intros s' P S S'.
  - symmetry. now apply Permutation_nil.
  - destruct s' as [|y s']; [symmetry in P; now apply Permutation_nil_cons in P|].
    inversion S as [|? ? Ss Fx]; inversion S' as [|? ? Ss' Fy]; subst.
    rewrite Forall_forall in Fx, Fy.
    assert (x = y).
    { assert (Hx : In x (y :: s')) by (apply (Permutation_in _ P); now left).
      assert (Hy : In y (x :: s)) by (apply (Permutation_in _ (Permutation_sym P)); now left).
      destruct Hx as [|Hx]; auto. destruct Hy as [|Hy]; auto.
      specialize (Fx _ Hy). specialize (Fy _ Hx). lra. }
    subst y. f_equal. apply IH; auto. now apply Permutation_cons_inv in P.
Qed.
Lemma median_unique l m m' : is_median l m -> is_median l m' -> m = m'.
Proof.
  intros (s & P & S & ->) (s' & P' & S' & ->).
  rewrite (sorted_unique s s'); auto. now rewrite <- P.
Qed.

(** ** Selections over records *)
Lemma msel_map {A B} (p : A -> bool) (f : A -> B) l : msel (map p l) (map f l) = map f (filter p l).
Proof. induction l as [|x l IH]; simpl; auto. destruct (p x); simpl; now rewrite IH. Qed.
Lemma land_map {A} (p q : A -> bool) l : land (map p l) (map q l) = map (fun x => p x && q x)%bool l.
Proof. induction l; simpl; auto. unfold land in *. simpl. now rewrite IHl. Qed.
Lemma map2_map {A B C D} (f : B -> C -> D) (g : A -> B) (h : A -> C) l :
  map2 f (map g l) (map h l) = map (fun x => f (g x) (h x)) l.
Proof. induction l; simpl; auto. now rewrite IHl. Qed.
Lemma msetc_map {A B} (p : A -> bool) (c : B) (f : A -> B) l :
  msetc (map p l) c (map f l) = map (fun x => if p x then c else f x) l.
Proof. apply map2_map. Qed.

Lemma near_b e x : (fle x (fadd (Fin e) (flit 1.5)) && fle (fsub (Fin e) (flit 1.5)) x)%bool
  = match x with Fin z => if Rle_dec (Rabs (z - e)) (3 / 2) then true else false | _ => false end.
Proof.
  assert (L : @flit xr _ 1.5 = Fin (15/10)) by (rewrite lit_fin; reflexivity).
  rewrite L, fadd_fin, fsub_fin. destruct x as [z| | |]; try reflexivity.
  rewrite !fle_fin. destruct (Rleb_spec z (e + 15/10)), (Rleb_spec (e - 15/10) z); cbn [andb];
    destruct Rle_dec as [A|A]; auto; exfalso; revert A; unfold Rabs; destruct Rcase_abs; intros; lra.
Qed.

Lemma filter_near e gs :
  map snd (filter (fun g : Z * xr => (fle (snd g) (fadd (Fin e) (flit 1.5)) && fle (fsub (Fin e) (flit 1.5)) (snd g)) && wet_snow (fst g))%bool gs)
  = map Fin (near_points e gs).
Proof.
  induction gs as [|(c, x) gs IH]; auto. cbn [filter]. cbn [fst snd]. rewrite near_b.
  unfold near_points. cbn [flat_map]. fold (near_points e gs).
  destruct x as [z| | |]; try exact IH.
  destruct (wet_snow c); [|rewrite andb_false_r; exact IH].
  destruct Rle_dec; cbn [andb]; [|exact IH]. cbn [map snd app]. now rewrite IH.
Qed.
