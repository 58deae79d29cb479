From Verif Require Import Base.Num Base.ListFacts Model.Misc Spec.MiscSpec.
From Coq Require Import Arith.
Set Implicit Arguments.

(** ** label *)
Lemma label_from_length ray cur inrun : length (label_from cur inrun ray) = length ray.
Proof. revert cur inrun; induction ray as [|[] r IH]; intros; simpl; auto. Qed.

Lemma label_length ray : length (label ray) = length ray.
Proof. apply label_from_length. Qed.

Lemma label_from_zero ray : forall cur inrun i,
  (inrun = true -> 0 < cur)%nat ->
  match nth_error ray i, nth_error (label_from cur inrun ray) i with
  | Some b, Some x => (b = false <-> x = 0%nat)
  | None, None => True
  | _, _ => False
  end.
Proof.
  induction ray as [|b r IH]; intros cur inrun [|i] Hc; simpl; auto.
  - destruct b; simpl; [|tauto]. destruct inrun; split; intro; try discriminate; try lia.
  - destruct b; simpl; apply IH; intros; try discriminate; try lia.
    destruct inrun; [apply Hc; auto|lia].
Qed.

Lemma label_zero ray i b x :
  nth_error ray i = Some b -> nth_error (label ray) i = Some x -> (b = false <-> x = 0%nat).
Proof.
  intros H1 H2. pose proof (@label_from_zero ray 0%nat false i) as H.
  unfold label in H2; rewrite H1, H2 in H. apply H; discriminate.
Qed.

Lemma label_from_ge ray : forall cur inrun x,
  In x (label_from cur inrun ray) -> x = 0%nat \/ (cur < x)%nat \/ (x = cur /\ inrun = true).
Proof.
  induction ray as [|b r IH]; intros cur inrun x; simpl; [tauto|].
  destruct b; simpl; intros [E|E].
  - destruct inrun; subst; auto.
  - apply IH in E as [E|[E|[E _]]]; auto; destruct inrun; subst; auto; right; left; lia.
  - auto.
  - apply IH in E as [E|[E|[_ E]]]; auto; discriminate.
Qed.

Lemma label_from_head ray : forall cur, (0 < cur)%nat ->
  exists k post, label_from cur true ray = repeat cur k ++ post /\ ~ In cur post.
Proof.
  induction ray as [|b r IH]; intros cur Hc; simpl.
  - exists O, []; simpl; auto.
  - destruct b.
    + destruct (IH cur Hc) as (k & post & E & Hp).
      exists (S k), post; simpl; rewrite E; auto.
    + exists O, (0%nat :: label_from cur false r); split; auto.
      intros [E|E]; [lia|]. apply label_from_ge in E; intuition (try lia; discriminate).
Qed.

Lemma label_from_split ray : forall cur c, (cur < c)%nat -> forall inrun,
  exists pre k post, label_from cur inrun ray = pre ++ repeat c k ++ post
    /\ ~ In c pre /\ ~ In c post.
Proof.
  induction ray as [|b r IH]; intros cur c Hc inrun; simpl.
  - exists [], O, []; simpl; auto.
  - destruct b.
    + destruct inrun.
      * destruct (IH cur c Hc true) as (pre & k & post & E & H1 & H2).
        exists (cur :: pre), k, post; rewrite E; split; auto; split; auto.
        intros [?|?]; [lia|auto].
      * destruct (Nat.eq_dec c (S cur)) as [->|Hne].
        -- destruct (@label_from_head r (S cur)) as (k & post & E & Hp); [lia|].
           exists [], (S k), post; simpl; rewrite E; auto.
        -- destruct (IH (S cur) c ltac:(lia) true) as (pre & k & post & E & H1 & H2).
           exists (S cur :: pre), k, post; rewrite E; split; auto; split; auto.
           intros [?|?]; [lia|auto].
    + destruct (IH cur c Hc false) as (pre & k & post & E & H1 & H2).
      exists (0%nat :: pre), k, post; rewrite E; split; auto; split; auto.
      intros [?|?]; [lia|auto].
Qed.

Lemma label_from_adj ray : forall cur inrun j,
  nth_error ray j = Some true -> nth_error ray (S j) = Some true ->
  nth_error (label_from cur inrun ray) j = nth_error (label_from cur inrun ray) (S j).
Proof.
  induction ray as [|b r IH]; intros cur inrun j H1 H2; [destruct j; discriminate|].
  destruct j as [|j].
  - simpl in H1; inversion H1; subst. destruct r as [|b2 r2]; [discriminate|].
    simpl in H2; inversion H2; subst. reflexivity.
  - destruct b; simpl label_from; apply IH; auto.
Qed.

Lemma label_run ray lo : forall n,
  (forall j, lo <= j < lo + n -> nth_error ray j = Some true)%nat ->
  forall j, (lo <= j < lo + n)%nat ->
  nth_error (label ray) j = nth_error (label ray) lo.
Proof.
  induction n as [|n IH]; intros H j Hj; [lia|].
  destruct (Nat.eq_dec j lo) as [->|Hne]; auto.
  destruct j as [|j]; [lia|]. unfold label. rewrite <- label_from_adj.
  - apply IH; [|lia]. intros; apply H; lia.
  - apply H; lia.
  - apply H; lia.
Qed.

(** ** count *)
Lemma count_app c a b : count c (a ++ b) = (count c a + count c b)%nat.
Proof. unfold count. rewrite filter_app, app_length; auto. Qed.
Lemma count_notin c l : ~ In c l -> count c l = 0%nat.
Proof.
  intro H. unfold count. induction l as [|x l IH]; auto. simpl.
  destruct (Nat.eqb_spec c x) as [->|]; [exfalso; apply H; now left|].
  apply IH; intro; apply H; now right.
Qed.
Lemma count_repeat c n : count c (repeat c n) = n.
Proof. unfold count. induction n; simpl; auto. rewrite Nat.eqb_refl; simpl; auto. Qed.

Lemma count_filter_pos c l : (0 < c)%nat ->
  count c (filter (fun x => (0 <? x)%nat) l) = count c l.
Proof.
  intro H. unfold count. induction l as [|x l IH]; auto. simpl.
  destruct (Nat.ltb_spec 0 x); simpl; destruct (Nat.eqb_spec c x); simpl; auto; try lia.
Qed.

Lemma lmax_ge l x : In x l -> (x <= lmax l)%nat.
Proof. induction l; simpl; [tauto|]. intros [->|H]; [lia|]. specialize (IHl H); lia. Qed.
Lemma lmin_le l x : In x l -> (lmin l <= x)%nat.
Proof.
  destruct l as [|y l]; simpl; [tauto|]. intro H.
  assert (forall z, (fold_right Nat.min y l <= z -> True))%nat by auto.
  destruct H as [->|H].
  - clear. induction l; simpl; lia.
  - clear H0. induction l as [|a l IH]; simpl in *; [tauto|].
    destruct H as [->|H]; [lia|]. specialize (IH H); lia.
Qed.
Lemma lmin_In l : l <> [] -> In (lmin l) l.
Proof.
  destruct l as [|y l]; [congruence|intros _]. simpl.
  induction l as [|a l IH]; simpl; auto.
  destruct (Nat.min_dec a (fold_right Nat.min y l)) as [->| ->]; auto.
  destruct IH; auto.
Qed.

(** The relabelling fold of _despeckle_ray *)
Lemma despeckle_fold (small : nat -> bool) feats : forall lab,
  ~ In 0%nat feats ->
  fold_left (fun lab feat =>
     if small feat then map (fun x => if (x =? feat)%nat then 0%nat else x) lab else lab)
    feats lab
  = map (fun x => if existsb (fun f => (x =? f)%nat && small f) feats then 0%nat else x) lab.
Proof.
  induction feats as [|f feats IH]; intros lab H0; simpl.
  - symmetry; apply map_id.
  - rewrite IH by (intro; apply H0; now right).
    assert (Hf : f <> 0%nat) by (intro; apply H0; now left).
    destruct (small f) eqn:E.
    + rewrite map_map. apply map_ext. intro x.
      destruct (Nat.eqb_spec x f) as [->|Hne]; simpl; auto.
      now destruct (existsb _ _).
    + apply map_ext; intro x. rewrite andb_false_r. reflexivity.
Qed.

(** [despeckle_ray] in one line: masked iff not good, or the label is rare. *)
Lemma despeckle_ray_char ray n :
  despeckle_ray ray n =
  map (fun x => (x =? 0)%nat || (Z.of_nat (count x (label ray)) <=? n)%Z) (label ray).
Proof.
  unfold despeckle_ray. set (lab := label ray).
  destruct (Nat.ltb_spec 0 (lmax lab)) as [Hpos|Hz].
  - set (labels := filter (fun x => (0 <? x)%nat) lab).
    assert (Hne : labels <> []).
    { intro E. assert (Hl : forall x, In x lab -> x = 0%nat).
      { intros x Hx. destruct x; auto. exfalso.
        assert (Hin : In (S x) labels) by (apply filter_In; split; auto).
        rewrite E in Hin; destruct Hin. }
      assert (lmax lab = 0)%nat; [|lia].
      clear -Hl. induction lab as [|a l IH]; auto. simpl.
      rewrite (Hl a) by now left. rewrite IH; auto. intros; apply Hl; now right. }
    assert (Hmin : (0 < lmin labels)%nat).
    { pose proof (lmin_In Hne) as Hin. apply filter_In in Hin as [_ Hin].
      now apply Nat.ltb_lt in Hin. }
    rewrite (@despeckle_fold (fun f => (Z.of_nat (count f labels) <=? n)%Z)).
    2:{ rewrite in_seq; lia. }
    rewrite map_map. apply map_ext_in. intros x Hx.
    destruct x as [|x]; [destruct (existsb _ _); reflexivity|].
    assert (Hxl : In (S x) labels) by (apply filter_In; split; auto).
    pose proof (lmin_le _ _ Hxl); pose proof (lmax_ge _ _ Hxl).
    change (S x =? 0)%nat with false. rewrite orb_false_l.
    rewrite <- (@count_filter_pos (S x) lab) by lia. fold labels.
    destruct (existsb _ _) eqn:E.
    + apply existsb_exists in E as (f & _ & Hf). apply andb_true_iff in Hf as [Hf1 Hf2].
      apply Nat.eqb_eq in Hf1; subst f. rewrite Hf2; reflexivity.
    + change (S x =? 0)%nat with false. symmetry. apply not_true_iff_false. intro Hc.
      apply not_true_iff_false in E; apply E. apply existsb_exists.
      exists (S x). rewrite in_seq, Nat.eqb_refl, Hc. split; auto. lia.
  - apply map_ext_in. intros x Hx. apply lmax_ge in Hx.
    assert (x = 0)%nat by lia; subst. reflexivity.
Qed.

Definition isgood (b : bool) : Prop := b = true.

Lemma despeckle_ray_length ray n : length (despeckle_ray ray n) = length ray.
Proof. rewrite despeckle_ray_char, map_length, label_length; auto. Qed.

Theorem despeckle_ray_spec ray n i b :
  nth_error ray i = Some b ->
  nth_error (despeckle_ray ray n) i = Some false <-> in_long_run isgood ray n i.
Proof.
  intros Hi. rewrite despeckle_ray_char, map_nth_error'.
  destruct (nth_error (label ray) i) as [x|] eqn:Hx.
  2:{ apply nth_error_None in Hx. rewrite label_length in Hx.
      apply nth_error_lt in Hi. lia. }
  split.
  - intro E. injection E as E. apply orb_false_iff in E as [E1 E2].
    apply Nat.eqb_neq in E1. apply Z.leb_gt in E2.
    destruct (@label_from_split ray 0%nat x ltac:(lia) false) as (pre & k & post & E & Hp1 & Hp2).
    fold (label ray) in E.
    assert (Hk : count x (label ray) = k).
    { rewrite E, !count_app, count_repeat, !count_notin by auto. lia. }
    rewrite Hk in E2.
    assert (Hr : (length pre <= i < length pre + k)%nat).
    { rewrite E in Hx. destruct (lt_dec i (length pre)) as [Hl|Hl].
      - rewrite nth_error_app1 in Hx by auto. apply nth_error_In in Hx; contradiction.
      - split; [lia|]. rewrite nth_error_app2 in Hx by lia.
        destruct (lt_dec (i - length pre) k) as [Hl2|Hl2]; [lia|].
        rewrite nth_error_app2 in Hx by (rewrite repeat_length; lia).
        apply nth_error_In in Hx; contradiction. }
    exists (length pre), (length pre + k)%nat. split; [auto|split; [lia|]].
    intros j Hj. exists true; split; [|reflexivity].
    assert (Hjx : nth_error (label ray) j = Some x).
    { rewrite E, nth_error_app2 by lia. rewrite nth_error_app1 by (rewrite repeat_length; lia).
      rewrite repeat_nth_error. destruct (Nat.ltb_spec (j - length pre) k); auto; lia. }
    assert (Hlt : (j < length ray)%nat) by (rewrite <- label_length; eapply nth_error_lt; eauto).
    destruct (nth_error_map_some _ Hlt) as [c Hc].
    destruct c; auto. pose proof (@label_zero ray j false x Hc Hjx) as [H _].
    specialize (H eq_refl). lia.
  - intros (lo & hi & Hr & Hlen & Hall).
    assert (Hall' : forall j, (lo <= j < lo + (hi - lo))%nat -> nth_error ray j = Some true).
    { intros j Hj. destruct (Hall j) as (c & Hc & Hg); [lia|]. rewrite Hc; f_equal; auto. }
    assert (Hlab : forall j, (lo <= j < hi)%nat -> nth_error (label ray) j = Some x).
    { intros j Hj. rewrite (@label_run ray lo (hi - lo) Hall' j) by lia.
      rewrite <- (@label_run ray lo (hi - lo) Hall' i) by lia. auto. }
    assert (Hx0 : x <> 0%nat).
    { intro E. pose proof (@label_zero ray i true x (Hall' i ltac:(lia)) Hx) as [_ H].
      discriminate (H E). }
    f_equal. apply orb_false_iff; split; [apply Nat.eqb_neq; auto|]. apply Z.leb_gt.
    assert (Hc : (hi - lo <= count x (label ray))%nat); [|lia].
    rewrite <- (firstn_skipn lo (label ray)), count_app.
    rewrite <- (firstn_skipn (hi - lo) (skipn lo (label ray))), count_app.
    assert (Hf : firstn (hi - lo) (skipn lo (label ray)) = repeat x (hi - lo)).
    { apply nth_error_ext. intro j. rewrite repeat_nth_error.
      assert (Hnf : forall (l : list nat) n j, nth_error (firstn n l) j =
                if (j <? n)%nat then nth_error l j else None).
      { clear. induction l as [|y l IH]; intros [|n] [|j]; simpl; auto.
        - now destruct (S j <? S n)%nat.
        - rewrite IH. reflexivity. }
      assert (Hns : forall (l : list nat) n j, nth_error (skipn n l) j = nth_error l (n + j)%nat).
      { clear. induction l as [|y l IH]; intros [|n] j; simpl; auto. destruct j; auto. }
      rewrite Hnf, Hns.
      destruct (Nat.ltb_spec j (hi - lo)); auto. apply Hlab; lia. }
    rewrite Hf, count_repeat. lia.
Qed.

(** Negative ngates behave like 0. *)
Lemma despeckle_ray_neg ray n : (n <= 0)%Z -> despeckle_ray ray n = despeckle_ray ray 0.
Proof.
  intro Hn. rewrite !despeckle_ray_char. apply map_ext_in. intros x Hx.
  assert (0 < count x (label ray))%nat.
  { clear -Hx. induction (label ray) as [|y l IH]; [destruct Hx|]. unfold count in *; simpl.
    destruct (Nat.eqb_spec x y); simpl; [lia|]. apply IH. destruct Hx; congruence. }
  f_equal. rewrite !(proj2 (Z.leb_gt _ _)) by lia. reflexivity.
Qed.

(** ** Runs, for any decidable notion of good gate *)
Section Runs.
Variable A : Type.
Variable good : A -> Prop.
Hypothesis good_dec : forall x, {good x} + {~ good x}.

Definition okat (ray : list A) j := exists x, nth_error ray j = Some x /\ good x.

Lemma okat_dec ray j : {okat ray j} + {~ okat ray j}.
Proof.
  unfold okat. destruct (nth_error ray j) as [x|].
  - destruct (good_dec x); [left; eauto|right]. intros (y & E & G). congruence.
  - right. intros (y & E & _). discriminate.
Qed.

Lemma run_down ray i : okat ray i ->
  exists lo, lo <= i /\ (forall j, lo <= j <= i -> okat ray j) /\
             (forall j, S j = lo -> ~ okat ray j).
Proof.
  induction i as [|i IH]; intro H.
  - exists O. split; auto. split; intros; [|lia]. now replace j with O by lia.
  - destruct (okat_dec ray i) as [Hi|Hi].
    + destruct (IH Hi) as (lo & H1 & H2 & H3). exists lo. split; [lia|split; auto].
      intros j Hj. destruct (Nat.eq_dec j (S i)); [subst; auto|apply H2; lia].
    + exists (S i). split; auto. split; intros.
      * now replace j with (S i) by lia.
      * now replace j with i by lia.
Qed.

Lemma run_up ray : forall d i, okat ray i -> length ray - i <= d ->
  exists hi, i < hi /\ (forall j, i <= j < hi -> okat ray j) /\ ~ okat ray hi.
Proof.
  induction d as [|d IH]; intros i H Hd.
  - destruct H as (x & E & _). apply nth_error_lt in E. lia.
  - destruct (okat_dec ray (S i)) as [Hi|Hi].
    + destruct (IH (S i) Hi ltac:(lia)) as (hi & H1 & H2 & H3).
      exists hi; split; [lia|split; auto]. intros j Hj.
      destruct (Nat.eq_dec j i); [subst; auto|apply H2; lia].
    + exists (S i). split; auto. split; auto. intros j Hj. now replace j with i by lia.
Qed.

Lemma maximal_run_exists ray i : okat ray i -> exists lo hi, maximal_run good ray i lo hi.
Proof.
  intro H. destruct (run_down H) as (lo & L1 & L2 & L3).
  destruct (@run_up ray (length ray) i H) as (hi & U1 & U2 & U3); [lia|].
  exists lo, hi. split; [lia|split; [|split]].
  - intros j Hj. destruct (le_lt_dec j i); [apply L2; lia|apply U2; lia].
  - intros j x E Ex G. apply (L3 j E). exists x; auto.
  - intros x Ex G. apply U3. exists x; auto.
Qed.

Lemma long_run_maximal ray n i lo hi : maximal_run good ray i lo hi ->
  in_long_run good ray n i <-> (n < Z.of_nat hi - Z.of_nat lo)%Z.
Proof.
  intros (H1 & H2 & H3 & H4). split.
  - intros (lo' & hi' & R & L & G).
    assert (lo <= lo').
    { destruct (le_lt_dec lo lo'); auto. destruct lo as [|k]; [lia|].
      destruct (G k) as (x & Ex & Gx); [lia|]. exfalso; eapply (H3 k); eauto. }
    assert (hi' <= hi).
    { destruct (le_lt_dec hi' hi); auto.
      destruct (G hi) as (x & Ex & Gx); [lia|]. exfalso; eapply H4; eauto. }
    lia.
  - intro L. exists lo, hi. auto.
Qed.

Lemma in_long_run_mono ray n n' i :
  (n <= n')%Z -> in_long_run good ray n' i -> in_long_run good ray n i.
Proof. intros H (lo & hi & R & L & G). exists lo, hi; split; auto; split; auto; lia. Qed.

End Runs.

Section Despeckle.
Context {F : Type} `{FloatOps F}.

(** "good" = not equal to the bad value. *)
Definition good_gate (bad x : F) : Prop := feq x bad = false.

Lemma good_gate_dec bad x : {good_gate bad x} + {~ good_gate bad x}.
Proof. unfold good_gate; destruct (feq x bad); [right; discriminate|left; auto]. Qed.

Definition ray_mask (ray : list F) (bad : F) (n : Z) : list bool :=
  despeckle_ray (map negb (map (fun x => feq x bad) ray)) n.

Lemma ray_mask_length ray bad n : length (ray_mask ray bad n) = length ray.
Proof. unfold ray_mask. rewrite despeckle_ray_length, !map_length; auto. Qed.

Lemma ray_mask_spec ray bad n i : (i < length ray)%nat ->
  nth_error (ray_mask ray bad n) i = Some false <-> in_long_run (good_gate bad) ray n i.
Proof.
  intro Hi. destruct (nth_error_map_some _ Hi) as [x Hx].
  unfold ray_mask. rewrite map_map.
  rewrite (@despeckle_ray_spec _ n i (negb (feq x bad))).
  2:{ rewrite map_nth_error', Hx; auto. }
  unfold in_long_run, isgood, good_gate.
  split; intros (lo & hi & R & L & G); exists lo, hi; split; auto; split; auto; intros j Hj;
    destruct (G j Hj) as (y & Ey & Gy).
  - rewrite map_nth_error' in Ey. destruct (nth_error ray j) as [z|]; [|discriminate].
    injection Ey as Ey. exists z; split; auto. destruct (feq z bad); auto; subst; discriminate.
  - exists (negb (feq y bad)). rewrite map_nth_error', Ey, Gy; auto.
Qed.

Lemma ray_mask_true ray bad n i : (i < length ray)%nat ->
  nth_error (ray_mask ray bad n) i = Some true <-> ~ in_long_run (good_gate bad) ray n i.
Proof.
  intro Hi. rewrite <- ray_mask_spec by auto.
  destruct (@nth_error_map_some _ (ray_mask ray bad n) i) as [b Hb].
  { now rewrite ray_mask_length. }
  rewrite Hb. destruct b; split; congruence.
Qed.

(** masked gates overwritten with the bad value *)
Definition overwrite (bad : F) (m : list bool) (ray : list F) : list F := msetc m bad ray.

Lemma ray_mask_idem ray bad n : feq bad bad = true ->
  ray_mask (overwrite bad (ray_mask ray bad n) ray) bad n = ray_mask ray bad n.
Proof.
  intro Hb. set (m := ray_mask ray bad n). set (ray' := overwrite bad m ray).
  assert (Hlen : length ray' = length ray).
  { unfold ray', overwrite, msetc, m. rewrite map2_length, ray_mask_length; lia. }
  assert (Hnth : forall j x, nth_error ray j = Some x ->
     nth_error ray' j = Some (match nth_error m j with Some true => bad | _ => x end)).
  { intros j x Hx. unfold ray', overwrite. rewrite msetc_nth_error, Hx.
    destruct (@nth_error_map_some _ m j) as [b E].
    { unfold m; rewrite ray_mask_length; eapply nth_error_lt; eauto. }
    rewrite E; now destruct b. }
  assert (Hiff : forall i, (i < length ray)%nat ->
     (nth_error (ray_mask ray' bad n) i = Some false <-> nth_error m i = Some false)).
  { intros i Hi. rewrite ray_mask_spec by lia. unfold m; rewrite ray_mask_spec by auto.
    split; intros (lo & hi & R & L & G); exists lo, hi; split; auto; split; auto; intros j Hj.
    - destruct (G j Hj) as (y & Ey & Gy).
      assert (Hj' : (j < length ray)%nat) by (rewrite <- Hlen; eapply nth_error_lt; eauto).
      destruct (nth_error_map_some _ Hj') as [x Hx]. rewrite (Hnth _ _ Hx) in Ey.
      exists x; split; auto. destruct (nth_error m j) as [[|]|]; injection Ey as <-; auto.
      unfold good_gate in Gy; congruence.
    - destruct (G j Hj) as (x & Ex & Gx). exists x; split; auto. rewrite (Hnth _ _ Ex).
      assert (nth_error m j = Some false) as ->; auto.
      unfold m. apply ray_mask_spec; [eapply nth_error_lt; eauto|].
      exists lo, hi; auto. }
  apply nth_error_ext; intro i.
  destruct (lt_dec i (length ray)) as [Hi|Hi].
  - destruct (@nth_error_map_some _ (ray_mask ray' bad n) i) as [b Eb].
    { rewrite ray_mask_length; lia. }
    destruct (@nth_error_map_some _ m i) as [c Ec].
    { unfold m; rewrite ray_mask_length; lia. }
    specialize (Hiff i Hi). rewrite Eb, Ec in *. fold m.
    destruct b, c; auto; destruct Hiff as [H1 H2]; [discriminate H2|discriminate H1]; auto.
  - rewrite !(proj2 (nth_error_None _ _)); auto; [unfold m|]; rewrite ?ray_mask_length; lia.
Qed.

Lemma concat_rows_nth {A} (f : nat -> list A) m : (forall k, length (f k) = m) ->
  forall n a k j, (k < n)%nat -> (j < m)%nat ->
  nth_error (concat (map f (seq a n))) (k * m + j) = nth_error (f (a + k)%nat) j.
Proof.
  intros Hf n; induction n as [|n IH]; intros a k j Hk Hj; [lia|]. simpl.
  destruct k as [|k].
  - rewrite nth_error_app1; [simpl; now rewrite Nat.add_0_r|rewrite Hf; simpl; auto].
  - rewrite nth_error_app2 by (rewrite Hf; lia). rewrite Hf.
    replace (S k * m + j - m)%nat with (k * m + j)%nat by lia.
    rewrite IH by lia. f_equal. f_equal. lia.
Qed.

Lemma concat_rows_length {A} (f : nat -> list A) m : forall n a,
  (forall k, (a <= k < a + n)%nat -> length (f k) = m) ->
  length (concat (map f (seq a n))) = (n * m)%nat.
Proof.
  induction n as [|n IH]; intros a Hf; simpl; auto.
  rewrite app_length, Hf, IH by (intros; try apply Hf; lia). auto.
Qed.

Lemma row_map {A B} (f : A -> B) m l az : row m (map f l) az = map f (row m l az).
Proof. unfold row. rewrite skipn_map, firstn_map. auto. Qed.

Lemma row_length {A} m (l : list A) n az :
  length l = (n * m)%nat -> (az < n)%nat -> length (row m l az) = m.
Proof.
  intros Hl Ha. unfold row. rewrite firstn_length, skipn_length, Hl.
  assert (az * m + m <= n * m)%nat by nia. lia.
Qed.

Lemma concat_map_row {A} (f : nat -> list A) m az : forall n a,
  (forall k, (a <= k < a + n)%nat -> length (f k) = m) -> (az < n)%nat ->
  row m (concat (map f (seq a n))) az = f (a + az)%nat.
Proof.
  intro n; revert az; induction n as [|n IH]; intros az a Hf Haz; [lia|]. simpl.
  unfold row. destruct az as [|az].
  - simpl. rewrite firstn_app, Hf by lia. rewrite Nat.sub_diag, firstn_O, app_nil_r.
    rewrite firstn_all2 by (rewrite Hf; lia). now rewrite Nat.add_0_r.
  - rewrite skipn_app. rewrite skipn_all2 by (rewrite Hf; nia). rewrite Hf by lia.
    replace (S az * m - m)%nat with (az * m)%nat by lia. simpl.
    specialize (IH az (S a)). unfold row in IH. rewrite IH; [f_equal; lia| |lia].
    intros; apply Hf; lia.
Qed.

Lemma despeckle_1d dt ray bad n :
  despeckle (AArr (mkarr dt [length ray] ray)) bad n = Ok ([length ray], ray_mask ray bad n).
Proof. reflexivity. Qed.

Lemma despeckle_2d dt n m data bad ng :
  despeckle (AArr (mkarr dt [n; m] data)) bad ng
  = Ok ([n; m], concat (map (fun az => ray_mask (row m data az) bad ng) (seq 0 n))).
Proof.
  simpl. do 2 f_equal. f_equal. apply map_ext; intro az. unfold ray_mask.
  now rewrite !row_map.
Qed.

End Despeckle.

(** ** insect_filter *)
Section Insect.
Context {F : Type} `{FloatOps F}.

Definition insect_hit (dz_range : list (F * F)) (dr_thresh : list F) (d r : F) : Prop :=
  exists k lo hi t, nth_error dz_range k = Some (lo, hi) /\ nth_error dr_thresh k = Some t /\
    flt lo d = true /\ fle d hi = true /\ fle t r = true.

Lemma fold_lor_length (cond : list (list bool)) : forall m n,
  length m = n -> (forall c, In c cond -> length c = n) -> length (fold_left lor cond m) = n.
Proof.
  induction cond as [|c cond IH]; intros m n Hm Hc; simpl; auto.
  apply IH; [|intros; apply Hc; now right].
  unfold lor; rewrite map2_length, Hm, (Hc c) by now left. lia.
Qed.

Lemma fold_lor_nth (cond : list (list bool)) i : forall m b,
  nth_error m i = Some b -> (forall c, In c cond -> exists x, nth_error c i = Some x) ->
  nth_error (fold_left lor cond m) i =
    Some (b || existsb (fun c => match nth_error c i with Some x => x | None => false end) cond).
Proof.
  induction cond as [|c cond IH]; intros m b Hm Hc; simpl.
  - now rewrite orb_false_r.
  - destruct (Hc c) as [x Hx]; [now left|].
    rewrite (IH _ (b || x)); [|now rewrite lor_nth_error, Hm, Hx|intros; apply Hc; now right].
    rewrite Hx. now rewrite orb_assoc.
Qed.

Definition sub_cond (dz zdr : list F) (lo hi t : F) : list bool :=
  land (land (map (fun d => flt lo d) dz) (map (fun d => fle d hi) dz))
       (map (fun r => fle t r) zdr).

Fixpoint insect_list (dz zdr : list F) (rs : list (F * F)) (ts : list F) : list (list bool) :=
  match rs, ts with
  | (lo, hi) :: rs', t :: ts' => sub_cond dz zdr lo hi t :: insect_list dz zdr rs' ts'
  | _, _ => []
  end.

Lemma insect_conds_ok dz zdr rs ts : forall i acc,
  (length ts + i <= length rs)%nat ->
  insect_conds dz zdr rs ts i acc = Ok (acc ++ insect_list dz zdr (skipn i rs) ts).
Proof.
  induction ts as [|t ts IH]; intros i acc Hl; cbn [insect_conds].
  - destruct (skipn i rs) as [|[]]; now rewrite app_nil_r.
  - destruct (nth_error rs i) as [[lo hi]|] eqn:E.
    2:{ apply nth_error_None in E; cbn [length] in Hl; lia. }
    rewrite IH by (cbn [length] in Hl; lia).
    assert (Hs : skipn i rs = (lo, hi) :: skipn (S i) rs).
    { clear -E. revert i E; induction rs as [|r rs IH]; intros [|i] E; simpl in *; try discriminate.
      - injection E as ->; auto.
      - apply IH; auto. }
    rewrite Hs. cbn [insect_list]. rewrite <- app_assoc. reflexivity.
Qed.

Lemma insect_conds_short dz zdr rs ts : forall i acc,
  (length rs < length ts + i)%nat -> (i <= length rs)%nat ->
  insect_conds dz zdr rs ts i acc = Raise IndexError.
Proof.
  induction ts as [|t ts IH]; intros i acc Hl Hi; cbn [insect_conds]; [simpl in Hl; lia|].
  destruct (nth_error rs i) as [[lo hi]|] eqn:E; auto.
  apply IH; cbn [length] in *; [lia|]. apply nth_error_lt in E; lia.
Qed.

Lemma insect_list_In dz zdr rs ts c : In c (insect_list dz zdr rs ts) ->
  exists lo hi t, c = sub_cond dz zdr lo hi t.
Proof.
  revert ts; induction rs as [|[lo hi] rs IH]; intros [|t ts]; simpl; try tauto.
  intros [<-|H1]; eauto.
Qed.

Lemma sub_cond_nth dz zdr lo hi t i d r :
  nth_error dz i = Some d -> nth_error zdr i = Some r ->
  nth_error (sub_cond dz zdr lo hi t) i = Some (flt lo d && fle d hi && fle t r).
Proof.
  intros Hd Hr. unfold sub_cond. now rewrite !land_nth_error, !map_nth_error', Hd, Hr.
Qed.

Lemma insect_list_hit dz zdr rs ts i d r :
  nth_error dz i = Some d -> nth_error zdr i = Some r ->
  existsb (fun c => match nth_error c i with Some x => x | None => false end)
          (insect_list dz zdr rs ts) = true <-> insect_hit rs ts d r.
Proof.
  intros Hd Hr. unfold insect_hit.
  revert ts; induction rs as [|[lo hi] rs IH]; intros ts.
  - simpl. split; [discriminate|]. intros ([|k] & ? & ? & ? & E & _); discriminate.
  - destruct ts as [|t ts]; simpl.
    + split; [discriminate|]. intros ([|k] & ? & ? & ? & _ & E & _); discriminate.
    + erewrite sub_cond_nth by eassumption. rewrite orb_true_iff, IH. split.
      * intros [E|(k & lo' & hi' & t' & E1 & E2 & E)].
        -- apply andb_true_iff in E as [E E3]. apply andb_true_iff in E as [E1 E2].
           exists O, lo, hi, t; simpl; auto.
        -- exists (S k), lo', hi', t'; simpl; auto.
      * intros ([|k] & lo' & hi' & t' & E1 & E2 & E3 & E4 & E5); simpl in *.
        -- injection E1 as -> ->. injection E2 as ->. left. now rewrite E3, E4, E5.
        -- right. exists k, lo', hi', t'; auto.
Qed.

Lemma insect_filter_ok dz zdr height mask rs ts bad :
  ashape dz = ashape zdr -> length (adata dz) = length (adata zdr) ->
  (forall m, mask = Some m -> length m = length (adata dz)) ->
  (length ts <= length rs)%nat ->
  exists out, insect_filter dz zdr height mask rs ts bad = Ok out /\
    length out = length (adata dz) /\
    forall i d r, nth_error (adata dz) i = Some d -> nth_error (adata zdr) i = Some r ->
    (nth_error out i = Some true <->
      match mask with
      | Some m => nth_error m i = Some true
      | None => feq d bad = true \/ feq r bad = true
      end \/ insect_hit rs ts d r) /\ exists b, nth_error out i = Some b.
Proof.
  intros Hs Hl Hm Ht. unfold insect_filter. rewrite Hs, shape_eqb_refl. simpl negb. cbv iota.
  rewrite insect_conds_ok by lia. simpl. eexists; split; [reflexivity|].
  set (m := match mask with None => _ | Some m => m end).
  assert (Hml : length m = length (adata dz)).
  { unfold m. destruct mask; auto. unfold lor. rewrite map2_length, !map_length. lia. }
  split.
  - apply fold_lor_length; auto. intros c Hc.
    apply insect_list_In in Hc as (lo & hi & t & ->).
    unfold sub_cond, land. rewrite !map2_length, !map_length. lia.
  - intros i d r Hd Hr.
    destruct (@nth_error_map_some _ m i) as [b Hb].
    { rewrite Hml; eapply nth_error_lt; eauto. }
    erewrite fold_lor_nth; [|exact Hb|].
    2:{ intros c Hc. apply insect_list_In in Hc as (lo & hi & t & ->).
        erewrite sub_cond_nth by eassumption. eauto. }
    split; [|eauto].
    pose proof (@insect_list_hit (adata dz) (adata zdr) rs ts i d r Hd Hr) as Hh.
    split.
    + intro E; injection E as E. apply orb_true_iff in E as [E|E]; [left|right; tauto].
      subst b. unfold m in Hb. destruct mask; auto.
      rewrite lor_nth_error, !map_nth_error', Hd, Hr in Hb. injection Hb as Hb.
      now apply orb_true_iff in Hb.
    + intro E. f_equal. apply orb_true_iff. destruct E as [E|E]; [left|right; tauto].
      unfold m in Hb. destruct mask; [congruence|].
      rewrite lor_nth_error, !map_nth_error', Hd, Hr in Hb. injection Hb as <-.
      now apply orb_true_iff.
Qed.
End Insect.
