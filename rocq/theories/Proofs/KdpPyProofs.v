(** The pure Python KDP estimator: a pass is a function of the phases before it *)
From Coq Require Import Reals Lra Lia Arith.
From Verif Require Import Base.Num Base.ListFacts Base.XReal Base.XTac Base.Pointwise Base.XArith.
From Verif Require Import Model.Tables Model.Beta Model.Melt Model.Kdp Model.KdpPy Spec.KdpSpec.
From Verif Require Import Proofs.HidProofs Proofs.SummerProofs Proofs.MeltProofs Proofs.KdpReal Proofs.KdpProofs Proofs.KdpFilter.

Section LawFree.
Context {F : Type} {fo : FloatOps F}.
Variable lstsq : list (F * F) -> res (F * F).
Variable toi16 : F -> Z.

Lemma at_map_seq (g : nat -> F) n j : (j < n)%nat -> at_ (map g (seq 0 n)) j = g j.
Proof. intro Hj. unfold at_. rewrite (map_at g (seq 0 n) 0%nat) by now rewrite seq_length. now rewrite seq_nth. Qed.
Lemma on_mask bad (sd thsd z : list F) j : (j < length z)%nat ->
  on (py_mask bad sd thsd z) j = (fle (at_ sd j) (at_ thsd j) && negb (feq (at_ z j) bad))%bool.
Proof.
  intro Hj. unfold on, py_mask. rewrite (map_at _ (seq 0 (length z)) 0%nat) by now rewrite seq_length. now rewrite seq_nth.
Qed.
Lemma on_mask_out bad (sd thsd z : list F) j : on (py_mask bad sd thsd z) j = true -> (j < length z)%nat.
Proof.
  intro Hj. destruct (lt_dec j (length z)); auto. unfold on in Hj. rewrite nth_overflow in Hj; [discriminate|].
  unfold py_mask. rewrite map_length, seq_length. lia.
Qed.
Lemma fill_len mask (a b : F) rng i n z : length (py_fill mask a b rng i n z) = length z.
Proof. unfold py_fill. now rewrite map_length, seq_length. Qed.
Lemma fill_ats mask (a b : F) rng i n z j : (j < length z)%nat -> at_ (py_fill mask a b rng i n z) j =
  if ((i <=? j)%nat && (j <? i + n)%nat && negb (on mask j))%bool then fadd (fmul a (at_ rng j)) b else at_ z j.
Proof. intro Hj. unfold py_fill. rewrite at_map_seq by auto. reflexivity. Qed.

(** the filtered value at gate i, from the phases z before the pass *)
Definition window_with_fit (rng : list F) (mask : list bool) (z : list F) (ab : F * F) (i n : nat) : list F :=
  map (fun j => if on mask j then at_ z j else fadd (fmul (fst ab) (at_ rng j)) (snd ab)) (seq i n).
Definition gate_value (f : fir F) (rng : list F) (mask : list bool) (z : list F) (i : nat) : res (option F) :=
  let half := (f_order f / 2)%nat in
  let n := (2 * half + 1)%nat in
  if ((half <=? i)%nat && (i + half <? length z - 1)%nat)%bool then
    let sel := filter (on mask) (seq (i - half) n) in
    if (4 * f_order f <? 5 * length sel)%nat then
      ab <- (if (length sel <? f_order f + 1)%nat then lstsq (map (fun j => (at_ rng j, at_ z j)) sel) else Ok (fnan, fnan)) ;;
      if (length (f_coef f) =? n)%nat
      then Ok (Some (fmul (f_gain f) (np_dot (f_coef f) (window_with_fit rng mask z ab (i - half) n))))
      else Raise ValueError
    else Ok None
  else Ok None.
Definition put (i : nat) (o : option F) (y : list F) : list F := match o with Some v => upd i v y | None => y end.

Definition agree (mask : list bool) (z zc : list F) : Prop :=
  length zc = length z /\ forall j, on mask j = true -> at_ zc j = at_ z j.

Lemma filter_full {A} (p : A -> bool) l : length (filter p l) = length l -> forall x, In x l -> p x = true.
Proof.
  induction l as [|a l IH]; simpl; intros E x Hx; [contradiction|].
  pose proof (filter_len p l). destruct (p a) eqn:Ea; simpl in E; [|lia].
  destruct Hx as [<-|Hx]; auto.
Qed.

Lemma py_gate_eq f rng mask z zc y i : agree mask z zc ->
  exists zc', agree mask z zc' /\
    py_gate lstsq f rng mask i (zc, y) = (o <- gate_value f rng mask z i ;; Ok (zc', put i o y)).
Proof.
  intros (L & A). unfold py_gate, gate_value. cbv zeta. rewrite L.
  set (half := (f_order f / 2)%nat). set (n := (2 * half + 1)%nat).
  destruct ((half <=? i)%nat && (i + half <? length z - 1)%nat)%bool eqn:Eb; [|exists zc; split; [split; auto|reflexivity]].
  apply andb_prop in Eb as (B1 & B2). apply Nat.leb_le in B1. apply Nat.ltb_lt in B2.
  set (sel := filter (on mask) (seq (i - half) n)).
  destruct (4 * f_order f <? 5 * length sel)%nat eqn:Es; [|exists zc; split; [split; auto|reflexivity]].
  assert (Ep : map (fun j => (at_ rng j, at_ zc j)) sel = map (fun j => (at_ rng j, at_ z j)) sel).
  { apply map_ext_in. intros j Hj. apply filter_In in Hj as (_ & Hj). now rewrite A. }
  rewrite Ep.
  destruct (Nat.ltb_spec (length sel) (f_order f + 1)) as [Hl|Hl].
  - destruct (lstsq (map (fun j => (at_ rng j, at_ z j)) sel)) as [(a, b)| | | |];
      try (exists zc; split; [split; auto|reflexivity]). cbn [bind fst snd].
    exists (py_fill mask a b rng (i - half) n zc). split.
    + split; [now rewrite fill_len|]. intros j Hj.
      destruct (lt_dec j (length zc)) as [Lj|Lj].
      * rewrite fill_ats by auto. rewrite Hj. cbn [negb]. rewrite andb_false_r. auto.
      * rewrite <- A by auto. unfold at_. rewrite !nth_overflow; auto; try rewrite fill_len; lia.
    + destruct (length (f_coef f) =? n)%nat; [|reflexivity]. cbn [bind put]. do 3 f_equal.
      unfold gates, window_with_fit. f_equal. f_equal. apply map_ext_in. intros j Hj. apply in_seq in Hj.
      rewrite fill_ats by (unfold n in Hj; lia). cbn [fst snd].
      destruct (Nat.leb_spec (i - half) j); [|lia]. destruct (Nat.ltb_spec j (i - half + n)); [|lia]. cbn [andb].
      destruct (on mask j) eqn:Ej; cbn [negb]; auto.
  - exists zc. split; [split; auto|]. cbn [bind].
    destruct (length (f_coef f) =? n)%nat; [|reflexivity]. cbn [bind put]. do 3 f_equal.
    unfold gates, window_with_fit. f_equal. f_equal. apply map_ext_in. intros j Hj.
    assert (Full : length sel = length (seq (i - half) n)).
    { pose proof (filter_len (on mask) (seq (i - half) n)). fold sel in H. rewrite seq_length in *.
      unfold n, half in *. pose proof (Nat.mul_div_le (f_order f) 2). lia. }
    rewrite (filter_full _ _ Full j Hj). apply A. apply (filter_full _ _ Full j Hj).
Qed.

Lemma py_loop_eq f rng mask z l : forall zc y, agree mask z zc ->
  exists zc', agree mask z zc' /\
    forM l (py_gate lstsq f rng mask) (zc, y)
    = (y' <- forM l (fun i y => o <- gate_value f rng mask z i ;; Ok (put i o y)) y ;; Ok (zc', y')).
Proof.
  induction l as [|i l IH]; intros zc y A.
  - exists zc. split; auto.
  - cbn [forM]. destruct (py_gate_eq f rng mask z zc y i A) as (z1 & A1 & ->).
    destruct (gate_value f rng mask z i) as [o| | | |]; try (exists zc; split; [auto|reflexivity]).
    cbn [bind]. destruct (IH z1 (put i o y) A1) as (z2 & A2 & ->). exists z2. split; auto.
Qed.

Lemma py_pass_eq f bad rng thsd sd z y :
  let mask := py_mask bad sd thsd z in
  py_pass lstsq f bad rng thsd sd (z, y)
  = (y' <- forM (filter (on mask) (seq 0 (length z))) (fun i y => o <- gate_value f rng mask z i ;; Ok (put i o y)) y ;; Ok (y', y')).
Proof.
  cbv zeta. unfold py_pass. cbv zeta. cbn [fst].
  destruct (py_loop_eq f rng (py_mask bad sd thsd z) z (filter (on (py_mask bad sd thsd z)) (seq 0 (length z))) z y) as (z' & _ & ->).
  - split; auto.
  - destruct (forM _ _ y); reflexivity.
Qed.

Lemma put_length i o (y : list F) : length (put i o y) = length y.
Proof. destruct o; simpl; auto. apply upd_length. Qed.
Lemma put_at i o (y : list F) j : (i < length y)%nat -> at_ (put i o y) j =
  if (i =? j)%nat then match o with Some v => v | None => at_ y j end else at_ y j.
Proof.
  intro L. destruct o as [v|]; simpl.
  - rewrite upd_at. destruct (Nat.eqb_spec i j); cbn [andb]; auto. destruct (Nat.ltb_spec i (length y)); auto; lia.
  - destruct (i =? j)%nat; auto.
Qed.

Lemma put_loop (gv : nat -> res (option F)) l : NoDup l -> forall y y', (forall i, In i l -> (i < length y)%nat) ->
  forM l (fun i y => o <- gv i ;; Ok (put i o y)) y = Ok y' ->
  length y' = length y /\
  (forall i, In i l -> exists o, gv i = Ok o /\ at_ y' i = match o with Some v => v | None => at_ y i end) /\
  (forall i, ~ In i l -> at_ y' i = at_ y i).
Proof.
  induction 1 as [|i l Ni ND IH]; intros y y' Hl E.
  - cbn in E. assert (y' = y) as -> by congruence. repeat split; auto. intros i [].
  - cbn [forM] in E. apply bind_ok in E as (y1 & E1 & E). apply bind_ok in E1 as (o & Eo & E1).
    assert (y1 = put i o y) as -> by congruence.
    assert (Hi : (i < length y)%nat) by (apply Hl; left; auto).
    destruct (IH (put i o y) y') as (L & A & B); auto.
    { intros k Hk. rewrite put_length. apply Hl. now right. }
    rewrite put_length in L. split; [auto|]. split.
    + intros k [<-|Hk].
      * exists o. split; auto. rewrite B by auto. rewrite put_at by auto. now rewrite Nat.eqb_refl.
      * destruct (A k Hk) as (o' & Eo' & Ea). exists o'. split; auto. rewrite Ea. destruct o'; auto.
        rewrite put_at by auto. destruct (Nat.eqb_spec i k) as [->|]; [contradiction|auto].
    + intros k Hk. rewrite B by (intro; apply Hk; now right). rewrite put_at by auto.
      destruct (Nat.eqb_spec i k) as [->|]; [|auto]. exfalso; apply Hk; now left.
Qed.
Lemma put_loop_total (gv : nat -> res (option F)) l : forall y, (forall i, In i l -> exists o, gv i = Ok o) ->
  exists y', forM l (fun i y => o <- gv i ;; Ok (put i o y)) y = Ok y'.
Proof.
  induction l as [|i l IH]; intros y G; [eexists; reflexivity|]. cbn [forM].
  destruct (G i) as (o & ->); [now left|]. cbn [bind]. apply IH. intros; apply G; now right.
Qed.

(** one pass *)
Lemma py_pass_ok f bad rng thsd sd z y st' : length y = length z ->
  py_pass lstsq f bad rng thsd sd (z, y) = Ok st' ->
  let mask := py_mask bad sd thsd z in
  fst st' = snd st' /\ length (fst st') = length z /\
  forall i, (i < length z)%nat ->
    if on mask i then exists o, gate_value f rng mask z i = Ok o /\ at_ (fst st') i = match o with Some v => v | None => at_ y i end
    else at_ (fst st') i = at_ y i.
Proof.
  intros L E mask. rewrite py_pass_eq in E. cbv zeta in E. fold mask in E. apply bind_ok in E as (y' & E & E').
  assert (st' = (y', y')) as -> by congruence. cbn [fst snd]. split; auto.
  apply put_loop in E; [|apply NoDup_filter, seq_NoDup|intros i Hi; apply filter_In in Hi as (Hi & _); apply in_seq in Hi; lia].
  destruct E as (L' & A & B). split; [lia|]. intros i Hi. destruct (on mask i) eqn:Em.
  - apply A. apply filter_In. split; auto. apply in_seq. lia.
  - apply B. intro I. apply filter_In in I as (_ & I). congruence.
Qed.
Lemma py_pass_total f bad rng thsd sd z y : let mask := py_mask bad sd thsd z in
  (forall i, (i < length z)%nat -> on mask i = true -> exists o, gate_value f rng mask z i = Ok o) ->
  exists y', py_pass lstsq f bad rng thsd sd (z, y) = Ok (y', y').
Proof.
  intros mask G. rewrite py_pass_eq. cbv zeta. fold mask.
  destruct (put_loop_total (gate_value f rng mask z) (filter (on mask) (seq 0 (length z))) y) as (y' & ->).
  - intros i Hi. apply filter_In in Hi as (Hi & Em). apply in_seq in Hi. apply G; auto; lia.
  - cbn [bind]. eauto.
Qed.

(** the whole call *)
Definition thr_ray (th : pthr F) (n : nat) : list F := match th with PNum x => repeat x n | PRay l => l end.
Lemma map_const {A B} (x : B) (l : list A) : map (fun _ => x) l = repeat x (length l).
Proof. induction l; simpl; f_equal; auto. Qed.

Lemma py_ok dp dz rng th nf bad f kd dl sd :
  calc_kdp_ray lstsq toi16 dp dz rng th nf bad f = Ok (kd, dl, sd) ->
  exists f', f = Some f' /\
  let n := length rng in
  length dp = n /\ length dz = n /\ length (thr_ray th n) = n /\
  sd = map (py_sd bad dp) (seq 0 n) /\
  (exists y, forM (seq 0 nf) (fun _ => py_pass lstsq f' bad rng (thr_ray th n) sd) (dp, repeat bad n) = Ok (dl, y)) /\
  length kd = n /\
  forall i, (i < n)%nat -> py_kd lstsq bad rng dl (py_nadp toi16 (f_order f' / 2) (at_ dz i)) i = Ok (at_ kd i).
Proof.
  unfold calc_kdp_ray. cbv zeta. intro E. destruct f as [f'|]; [|discriminate]. exists f'. split; auto. cbv zeta.
  assert (Et : match th with PNum x => map (fun _ => x) rng | PRay l => l end = thr_ray th (length rng)).
  { destruct th; simpl; auto. apply map_const. }
  rewrite Et, map_const in E. destruct (negb _) eqn:Eb; [discriminate|]. apply negb_false_iff in Eb.
  apply andb_prop in Eb as (Eb & E3). apply andb_prop in Eb as (E1 & E2). apply Nat.eqb_eq in E1, E2, E3.
  apply bind_ok in E as ((z, y) & Ef & E). cbn [fst] in E. apply bind_ok in E as (k & Ek & E).
  assert (kd = k /\ dl = z /\ sd = map (py_sd bad dp) (seq 0 (length rng))) as (-> & -> & ->) by (repeat split; congruence).
  repeat split; auto.
  - exists y. exact Ef.
  - apply mapM_ok in Ek as (Lk & _). now rewrite seq_length in Lk.
  - intros i Hi. destruct (mapM_ok _ _ _ Ek) as (Lk & Gk).
    destruct (Gk i i) as (v & Ev & Gv); [now apply seq_nth_error|].
    rewrite Gv. f_equal. unfold at_. symmetry. now apply nth_error_nth.
Qed.

(** what no pass changes *)
Lemma passes_inv (P : list F -> list F -> Prop) f bad rng thsd sd nf z y st' : length y = length z ->
  P z y -> (forall z y st, length z = length rng -> length y = length rng -> P z y -> py_pass lstsq f bad rng thsd sd (z, y) = Ok st -> P (fst st) (snd st)) ->
  length z = length rng ->
  forM (seq 0 nf) (fun _ => py_pass lstsq f bad rng thsd sd) (z, y) = Ok st' ->
  P (fst st') (snd st') /\ length (fst st') = length rng /\ length (snd st') = length rng.
Proof.
  intros L P0 G Lz. generalize (seq 0 nf). intro l. revert z y L P0 Lz.
  induction l as [|x l IH]; intros z y L P0 Lz E.
  - cbn in E. assert (st' = (z, y)) as -> by congruence. cbn [fst snd]. repeat split; auto. lia.
  - cbn [forM] in E. apply bind_ok in E as ((z1, y1) & E1 & E). cbn beta in E1.
    pose proof (py_pass_ok _ _ _ _ _ _ _ _ L E1) as K. cbv zeta in K. cbn [fst snd] in K. destruct K as (Ez & L1 & _). subst y1.
    apply (IH z1 z1); auto; [|lia].
    apply (G z y (z1, z1)); auto. lia.
Qed.

(** after at least one pass z and y are the same array *)
Lemma passes_first f bad rng thsd sd nf z y st' : (1 <= nf)%nat ->
  forM (seq 0 nf) (fun _ => py_pass lstsq f bad rng thsd sd) (z, y) = Ok st' ->
  exists st, py_pass lstsq f bad rng thsd sd (z, y) = Ok st /\
    forM (seq 0 (nf - 1)) (fun _ => py_pass lstsq f bad rng thsd sd) st = Ok st'.
Proof.
  intros H E. destruct nf as [|nf]; [lia|]. cbn [seq forM] in E. apply bind_ok in E as (st & E1 & E).
  exists st. split; auto. replace (S nf - 1)%nat with nf by lia.
  clear E1 H. revert st E. rewrite <- seq_shift.
  assert (G : forall l st, forM (map S l) (fun _ => py_pass lstsq f bad rng thsd sd) st = forM l (fun _ => py_pass lstsq f bad rng thsd sd) st).
  { induction l as [|x l IH]; intro st; auto. cbn [map forM]. destruct (py_pass _ _ _ _ _ _ st); cbn [bind]; auto. }
  intros st E. rewrite G in E. auto.
Qed.

Lemma gate_value_edge f rng mask (z : list F) i :
  (i < f_order f / 2 \/ length z <= i + f_order f / 2 + 1)%nat -> gate_value f rng mask z i = Ok None.
Proof.
  intro H. unfold gate_value. cbv zeta.
  destruct (Nat.leb_spec (f_order f / 2) i); [|reflexivity].
  destruct (Nat.ltb_spec (i + f_order f / 2) (length z - 1)); [lia|reflexivity].
Qed.

(** once missing, missing for ever *)
Lemma stays_bad f bad rng thsd sd nf z st' i : feq bad bad = true -> length z = length rng -> (i < length rng)%nat ->
  at_ z i = bad -> forM (seq 0 nf) (fun _ => py_pass lstsq f bad rng thsd sd) (z, z) = Ok st' -> at_ (fst st') i = bad.
Proof.
  intros Hb Lz Hi H0 E.
  assert (K := passes_inv (fun z y => at_ z i = bad /\ at_ y i = bad) f bad rng thsd sd nf z z st' eq_refl (conj H0 H0)).
  destruct K as ((K & _) & _); auto.
  intros z1 y1 st Lz1 Ly1 (A & B) E1.
  pose proof (py_pass_ok f bad rng thsd sd z1 y1 st) as K. cbv zeta in K. destruct K as (Es & L1 & G); auto; [lia|].
  rewrite <- Es. specialize (G i). rewrite on_mask, A, Hb, andb_false_r in G by lia.
  rewrite G by lia. auto.
Qed.
Lemma edge_bad f bad rng thsd sd nf z y st' i : length z = length rng -> length y = length rng -> (i < length rng)%nat ->
  (i < f_order f / 2 \/ length rng <= i + f_order f / 2 + 1)%nat ->
  at_ y i = bad -> (1 <= nf)%nat -> forM (seq 0 nf) (fun _ => py_pass lstsq f bad rng thsd sd) (z, y) = Ok st' -> at_ (fst st') i = bad.
Proof.
  intros Lz Ly Hi He H0 Hn E. apply passes_first in E as (st & E1 & E); auto.
  assert (S1 : forall z y st, length z = length rng -> length y = length rng -> at_ y i = bad ->
    py_pass lstsq f bad rng thsd sd (z, y) = Ok st -> fst st = snd st /\ length (fst st) = length rng /\ at_ (fst st) i = bad).
  { intros z1 y1 s Lz1 Ly1 B E2. pose proof (py_pass_ok f bad rng thsd sd z1 y1 s) as K. cbv zeta in K.
    destruct K as (Es & L1 & G); auto; [lia|]. split; auto. split; [lia|]. specialize (G i ltac:(lia)).
    destruct (on _ i); [|congruence]. destruct G as (o & Eo & G). rewrite gate_value_edge in Eo by (rewrite Lz1; auto).
    assert (o = None) as -> by congruence. congruence. }
  destruct (S1 z y st Lz Ly H0 E1) as (Es & L1 & A). destruct st as (z1, y1). cbn [fst snd] in *. subst y1.
  assert (K := passes_inv (fun z y => at_ z i = bad /\ at_ y i = bad) f bad rng thsd sd (nf - 1) z1 z1 st' eq_refl (conj A A)).
  destruct K as ((K & _) & _); auto.
  intros z2 y2 s Lz2 Ly2 (B & C) E2. destruct (S1 z2 y2 s Lz2 Ly2 C E2) as (Es & _ & D). rewrite <- Es. auto.
Qed.
End LawFree.

(** ** Locality *)
Section Local.
Context {F : Type} {fo : FloatOps F}.
Variable lstsq : list (F * F) -> res (F * F).

(** equal at the gates lo .. hi, both widened by k *)
Definition same (l l' : list F) (lo hi k : nat) : Prop :=
  forall j, (lo <= j + k)%nat -> (j <= hi + k)%nat -> at_ l j = at_ l' j.
Lemma same_le l l' lo hi k k' : (k' <= k)%nat -> same l l' lo hi k -> same l l' lo hi k'.
Proof. intros H S j H1 H2. apply S; lia. Qed.

Lemma py_sd_local bad (dp dp' : list F) lo hi i : length dp = length dp' -> same dp dp' lo hi 5 -> (lo <= i <= hi)%nat ->
  py_sd bad dp i = py_sd bad dp' i.
Proof.
  intros L S Hi. unfold py_sd. rewrite <- L, <- (S i) by lia.
  assert (E : gates dp (i - 5) 10 = gates dp' (i - 5) 10 \/ (i < 5)%nat).
  { destruct (le_lt_dec 5 i); [left|right; auto]. apply map_ext_in. intros j Hj. apply in_seq in Hj. apply S; lia. }
  destruct E as [E|E]; [now rewrite E|]. destruct (Nat.leb_spec 5 i); [lia|]. now rewrite andb_false_r.
Qed.

Lemma gate_value_local f rng rng' mask mask' (z z' : list F) i : length z = length z' ->
  (forall j, (i <= j + f_order f / 2)%nat -> (j <= i + f_order f / 2)%nat ->
     on mask j = on mask' j /\ at_ z j = at_ z' j /\ at_ rng j = at_ rng' j) ->
  gate_value lstsq f rng mask z i = gate_value lstsq f rng' mask' z' i.
Proof.
  intros L G. unfold gate_value. cbv zeta. rewrite <- L.
  destruct (Nat.leb_spec (f_order f / 2) i); [|reflexivity]. cbn [andb].
  destruct (Nat.ltb_spec (i + f_order f / 2) (length z - 1)); [|reflexivity].
  assert (Es : filter (on mask) (seq (i - f_order f / 2) (2 * (f_order f / 2) + 1)) = filter (on mask') (seq (i - f_order f / 2) (2 * (f_order f / 2) + 1))).
  { apply filter_ext_in'. intros j Hj. apply in_seq in Hj. apply G; lia. }
  rewrite <- Es. destruct (_ <? 5 * _)%nat; [|reflexivity].
  assert (Ep : map (fun j => (at_ rng j, at_ z j)) (filter (on mask) (seq (i - f_order f / 2) (2 * (f_order f / 2) + 1)))
    = map (fun j => (at_ rng' j, at_ z' j)) (filter (on mask) (seq (i - f_order f / 2) (2 * (f_order f / 2) + 1)))).
  { apply map_ext_in. intros j Hj. apply filter_In in Hj as (Hj & _). apply in_seq in Hj. destruct (G j) as (_ & -> & ->); auto; lia. }
  rewrite <- Ep.
  assert (Ew : forall ab, window_with_fit rng mask z ab (i - f_order f / 2) (2 * (f_order f / 2) + 1) = window_with_fit rng' mask' z' ab (i - f_order f / 2) (2 * (f_order f / 2) + 1)).
  { intro ab. apply map_ext_in. intros j Hj. apply in_seq in Hj. destruct (G j) as (-> & -> & ->); auto; lia. }
  destruct (_ <? f_order f + 1)%nat.
  - destruct (lstsq _); cbn [bind]; auto. destruct (_ =? _)%nat; auto. now rewrite Ew.
  - cbn [bind]. destruct (_ =? _)%nat; auto. now rewrite Ew.
Qed.

Lemma pass_local f bad rng rng' thsd thsd' sd sd' z z' y y' st st' n lo hi k :
  length z = n -> length z' = n -> length y = n -> length y' = n ->
  py_pass lstsq f bad rng thsd sd (z, y) = Ok st -> py_pass lstsq f bad rng' thsd' sd' (z', y') = Ok st' ->
  let half := (f_order f / 2)%nat in
  same z z' lo hi (k + half) -> same y y' lo hi k ->
  same rng rng' lo hi (k + half) -> same sd sd' lo hi (k + half) -> same thsd thsd' lo hi (k + half) ->
  same (fst st) (fst st') lo hi k.
Proof.
  intros Lz Lz' Ly Ly' E E' half Sz Sy Sr Ss St j Hj1 Hj2.
  destruct (lt_dec j n) as [Hn|Hn].
  - apply py_pass_ok in E; [|lia]. apply py_pass_ok in E'; [|lia]. cbv zeta in E, E'.
    destruct E as (_ & _ & G). destruct E' as (_ & _ & G'). specialize (G j ltac:(lia)). specialize (G' j ltac:(lia)).
    assert (M : forall q, (lo <= q + (k + half))%nat -> (q <= hi + (k + half))%nat ->
      on (py_mask bad sd thsd z) q = on (py_mask bad sd' thsd' z') q).
    { intros q Q1 Q2. destruct (lt_dec q n).
      - rewrite !on_mask by lia. now rewrite (Sz q), (Ss q), (St q) by auto.
      - destruct (on (py_mask bad sd thsd z) q) eqn:A; [apply on_mask_out in A; lia|].
        destruct (on (py_mask bad sd' thsd' z') q) eqn:B; [apply on_mask_out in B; lia|]. reflexivity. }
    rewrite <- (M j) in G' by (auto; lia). rewrite <- (Sy j) in G' by auto. destruct (on _ j).
    + destruct G as (o & Eo & ->). destruct G' as (o' & Eo' & ->).
      rewrite (gate_value_local f rng rng' _ (py_mask bad sd' thsd' z') z z') in Eo; [assert (o = o') as -> by congruence; reflexivity|lia|].
      fold half. intros q Q1 Q2. rewrite M, Sz, Sr by lia. auto.
    + congruence.
  - apply py_pass_ok in E; [|lia]. apply py_pass_ok in E'; [|lia]. cbv zeta in E, E'.
    destruct E as (_ & L & _). destruct E' as (_ & L' & _). unfold at_. rewrite !nth_overflow; auto; lia.
Qed.

Lemma passes_local f bad rng rng' thsd thsd' sd sd' n lo hi : forall nf z z' y y' st st' k,
  length z = n -> length z' = n -> length y = n -> length y' = n ->
  forM (seq 0 nf) (fun _ => py_pass lstsq f bad rng thsd sd) (z, y) = Ok st ->
  forM (seq 0 nf) (fun _ => py_pass lstsq f bad rng' thsd' sd') (z', y') = Ok st' ->
  let half := (f_order f / 2)%nat in
  same z z' lo hi (k + nf * half) -> same y y' lo hi (k + nf * half) ->
  same rng rng' lo hi (k + nf * half) -> same sd sd' lo hi (k + nf * half) -> same thsd thsd' lo hi (k + nf * half) ->
  same (fst st) (fst st') lo hi k.
Proof.
  induction nf as [|nf IH]; intros z z' y y' st st' k Lz Lz' Ly Ly' E E' half Sz Sy Sr Ss St.
  - cbn in E, E'. assert (st = (z, y)) as -> by congruence. assert (st' = (z', y')) as -> by congruence. cbn [fst].
    eapply same_le; [|exact Sz]. lia.
  - apply passes_first in E as ((z1, y1) & E1 & E); [|lia]. apply passes_first in E' as ((z1', y1') & E1' & E'); [|lia].
    replace (S nf - 1)%nat with nf in E, E' by lia.
    assert (P1 : same z1 z1' lo hi (k + nf * half)).
    { assert (P := pass_local f bad rng rng' thsd thsd' sd sd' z z' y y' (z1, y1) (z1', y1') n lo hi (k + nf * half)).
      cbv zeta in P. fold half in P. cbn [fst] in P. apply P; auto; try (eapply same_le; [|eassumption]; simpl; lia). }
    apply py_pass_ok in E1; [|lia]. apply py_pass_ok in E1'; [|lia]. cbv zeta in E1, E1'. cbn [fst snd] in E1, E1'.
    destruct E1 as (-> & L1 & _). destruct E1' as (-> & L1' & _).
    apply (IH y1 y1' y1 y1'); auto; try lia; fold half; try (eapply same_le; [|eassumption]; simpl; lia).
Qed.

Lemma py_kd_local bad rng rng' (dl dl' : list F) nadp i lo hi k : length dl = length dl' ->
  same dl dl' lo hi k -> same rng rng' lo hi k -> (lo <= i <= hi)%nat -> (nadp <= 2 * Z.of_nat k)%Z ->
  py_kd lstsq bad rng dl nadp i = py_kd lstsq bad rng' dl' nadp i.
Proof.
  intros L S Sr Hi Hn. unfold py_kd. rewrite <- (S i), <- L by lia.
  destruct (feq (at_ dl i) bad); [reflexivity|]. cbn [negb].
  destruct (py_indices nadp i) as (i1, i2) eqn:Ei.
  assert (E1 : i1 = Z.quot (2 * Z.of_nat i - nadp) 2) by (apply (f_equal fst) in Ei; symmetry; exact Ei).
  assert (E2 : i2 = Z.quot (2 * Z.of_nat i + nadp + 2) 2) by (apply (f_equal snd) in Ei; symmetry; exact Ei).
  destruct ((0 <=? i1) && _)%Z%bool eqn:Eb; [|reflexivity]. apply andb_prop in Eb as (B1 & B2). apply Z.leb_le in B1, B2.
  assert (R1 : (Z.of_nat i - Z.of_nat k <= i1)%Z). { subst i1. apply Z.quot_le_lower_bound; lia. }
  assert (R2 : (i2 <= Z.of_nat i + Z.of_nat k + 1)%Z). { subst i2. apply Z.quot_le_upper_bound; lia. }
  assert (W : forall j, In j (zrange i1 i2) -> at_ dl (Z.to_nat j) = at_ dl' (Z.to_nat j) /\ at_ rng (Z.to_nat j) = at_ rng' (Z.to_nat j)).
  { intros j Hj. apply zrange_In in Hj. split; [apply S|apply Sr]; lia. }
  assert (Es : filter (fun j => negb (feq (at_ dl (Z.to_nat j)) bad)) (zrange i1 i2) = filter (fun j => negb (feq (at_ dl' (Z.to_nat j)) bad)) (zrange i1 i2)).
  { apply filter_ext_in'. intros j Hj. now rewrite (proj1 (W j Hj)). }
  rewrite <- Es. destruct (_ <=? _)%Z; [|reflexivity]. f_equal. f_equal. apply map_ext_in. intros j Hj.
  apply filter_In in Hj as (Hj & _). destruct (W j Hj) as (-> & ->). reflexivity.
Qed.
End Local.
