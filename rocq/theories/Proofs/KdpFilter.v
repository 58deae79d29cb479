(** One filtering pass over a ray without missing gates, and KDP of a line. *)
From Coq Require Import Reals Lra Lia Arith.
From Verif Require Import Base.Num Base.ListFacts Base.XReal Base.XTac Base.Pointwise Base.XArith.
From Verif Require Import Model.Tables Model.Beta Model.Melt Model.Kdp Spec.KdpSpec.
From Verif Require Import Proofs.HidProofs Proofs.SummerProofs Proofs.MeltProofs Proofs.KdpReal Proofs.KdpProofs.

Section LawFree.
Context {F : Type} {fo : FloatOps F}.

Lemma fill_none bd bad aa bb rng i1 n (z : list F) :
  (forall j, (j < length z)%nat -> feq (at_ z j) bad = false) -> fill bd bad aa bb rng i1 n z = z.
Proof.
  intro G. apply nth_error_ext; intro j.
  unfold fill. rewrite map_nth_error'.
  destruct (lt_dec j (length z)) as [L|L].
  - rewrite seq_nth_error by auto. simpl. rewrite G by auto. rewrite andb_false_r. unfold at_.
    symmetry. now apply nth_error_nth'.
  - rewrite (proj2 (nth_error_None (seq 0 (length z)) j)) by (rewrite seq_length; lia).
    symmetry. apply nth_error_None. lia.
Qed.

(** how many gates of the window around i pass the noise threshold *)
Definition quiet (sd thsd : list F) (j : nat) : bool := fle (at_ sd j) (at_ thsd j).
Definition nquiet (half : nat) (sd thsd : list F) (i : nat) : nat :=
  length (filter (quiet sd thsd) (seq (i - half) (2 * half + 1))).
Definition filtered (order n : nat) (sd thsd : list F) (i : nat) : bool :=
  let half := (order / 2)%nat in
  ((half <=? i) && (i + half <? n) && quiet sd thsd i && (4 * order <? 5 * nquiet half sd thsd i))%nat%bool.

Lemma filter_ext_in' {A} (f g : A -> bool) l : (forall x, In x l -> f x = g x) -> filter f l = filter g l.
Proof. induction l as [|x l IH]; simpl; intro G; auto. rewrite (G x) by auto. rewrite IH by auto. auto. Qed.

Lemma fir_gate_nomiss p rng thsd sd (z y : list F) i st' :
  (forall j, (j < length z)%nat -> feq (at_ z j) (p_bad p) = false) ->
  (p_order p / 2 <= i)%nat -> (i + p_order p / 2 < length z)%nat ->
  fir_gate p rng thsd sd i (z, y) = Ok st' ->
  st' = (z, if filtered (p_order p) (length z) sd thsd i
            then upd i (f32 (fmul (fir_sum (p_build p) (p_coeff p) (p_mem p) z (i - p_order p / 2) (2 * (p_order p / 2) + 1)) (p_gain p))) y
            else y).
Proof.
  intros G H1 H2. unfold fir_gate, filtered. cbv zeta.
  assert (Q : forall j, (j < length z)%nat -> good (p_bad p) sd thsd z j = quiet sd thsd j).
  { intros j Hj. unfold good, quiet. rewrite G by auto. apply andb_true_r. }
  rewrite (Q i) by lia.
  destruct (Nat.leb_spec (p_order p / 2) i); [|lia].
  destruct (Nat.ltb_spec (i + p_order p / 2) (length z)); [|lia]. cbn [andb].
  destruct (quiet sd thsd i); cbn [andb]; [|intro E; now injection E as <-].
  rewrite (filter_ext_in' _ (quiet sd thsd)) by (intros j Hj; apply in_seq in Hj; apply Q; lia).
  rewrite map_length. fold (nquiet (p_order p / 2) sd thsd i).
  destruct (500 <? nquiet _ _ _ _)%nat; [discriminate|].
  destruct (4 * p_order p <? 5 * nquiet _ _ _ _)%nat; [|intro E; now injection E as <-].
  intro E. apply bind_ok in E as (z' & Ez & E). injection E as <-.
  assert (z' = z) as ->; auto.
  destruct (_ <? p_order p + 1)%nat; [|now injection Ez].
  apply bind_ok in Ez as (ab & _ & Ez). injection Ez as <-. now apply fill_none.
Qed.

Lemma seq_split' a n : seq a (S n) = seq a n ++ [(a + n)%nat].
Proof. apply seq_S. Qed.

Lemma fir_pass_nomiss p rng thsd sd (z y : list F) st' :
  length y = length z ->
  (forall j, (j < length z)%nat -> feq (at_ z j) (p_bad p) = false) ->
  fir_pass p rng thsd sd (z, y) = Ok st' ->
  forall i, (i < length z)%nat -> at_ (fst st') i =
    if filtered (p_order p) (length z) sd thsd i
    then f32 (fmul (fir_sum (p_build p) (p_coeff p) (p_mem p) z (i - p_order p / 2) (2 * (p_order p / 2) + 1)) (p_gain p))
    else at_ y i.
Proof.
  intros Ly G E. unfold fir_pass in E. cbv zeta in E. cbn [fst] in E.
  apply bind_ok in E as (t & E & E'). injection E' as <-. cbn [fst].
  set (half := (p_order p / 2)%nat) in *. set (n := length z) in *.
  assert (I : forall m t, (m <= n - half - half)%nat -> forM (seq half m) (fir_gate p rng thsd sd) (z, y) = Ok t ->
    fst t = z /\ length (snd t) = n /\ forall i, (i < n)%nat -> at_ (snd t) i =
      if ((i <? half + m)%nat && filtered (p_order p) n sd thsd i)%bool
      then f32 (fmul (fir_sum (p_build p) (p_coeff p) (p_mem p) z (i - half) (2 * half + 1)) (p_gain p)) else at_ y i).
  { clear E t. induction m as [|m IH]; intros t Hm E.
    - simpl in E. injection E as <-. cbn [fst snd]. repeat split; auto. intros i Hi.
      destruct (Nat.ltb_spec i (half + 0)); [|reflexivity]. unfold filtered. fold half.
      destruct (Nat.leb_spec half i); [lia|reflexivity].
    - rewrite seq_split', forM_app in E. apply bind_ok in E as (s & Es & E).
      destruct (IH s) as (I1 & I2 & I3); auto; [lia|]. destruct s as (z1, y1). cbn [fst snd] in *. subst z1.
      cbn [forM] in E. apply bind_ok in E as (s' & E1 & E2). injection E2 as <-.
      apply fir_gate_nomiss in E1; [|auto|fold half; lia|fold half n; lia]. fold half n in E1. subst s'. cbn [fst snd].
      destruct (filtered (p_order p) n sd thsd (half + m)) eqn:Ef.
      + rewrite upd_length. repeat split; auto. intros i Hi. rewrite upd_at, I2.
        destruct (Nat.eqb_spec (half + m) i) as [<-|N].
        * destruct (Nat.ltb_spec (half + m) n); [|lia]. cbn [andb]. rewrite Ef.
          destruct (Nat.ltb_spec (half + m) (half + S m)); [reflexivity|lia].
        * cbn [andb]. rewrite I3 by auto.
          destruct (Nat.ltb_spec i (half + m)), (Nat.ltb_spec i (half + S m)); auto; lia.
      + repeat split; auto. intros i Hi. rewrite I3 by auto.
        destruct (Nat.ltb_spec i (half + m)), (Nat.ltb_spec i (half + S m)); auto; try lia.
        assert (i = half + m)%nat as -> by lia. now rewrite Ef. }
  intros i Hi. destruct (I _ _ (Nat.le_refl _) E) as (_ & _ & I3). cbn [snd]. rewrite I3 by auto.
  destruct (Nat.ltb_spec i (half + (n - half - half))); [reflexivity|]. cbn [andb].
  unfold filtered. fold half. destruct (Nat.leb_spec half i); [|reflexivity].
  destruct (Nat.ltb_spec (i + half) n); [lia|reflexivity].
Qed.

(** [nf = 1], no missing phase *)
Lemma ray_nomiss p nadp0 (dp dz rng thsd : list F) sg kd dl sd :
  calc_kdp_ray_fir p nadp0 dp dz rng thsd 1 sg = Ok (kd, dl, sd) ->
  (forall j, (j < length dp)%nat -> feq (f32 (at_ dp j)) (p_bad p) = false) ->
  forall i, (i < length dp)%nat -> at_ dl i =
    if filtered (p_order p) (length dp) sd thsd i
    then f32 (fmul (fir_sum (p_build p) (p_coeff p) (p_mem p) (map f32 dp) (i - p_order p / 2) (2 * (p_order p / 2) + 1)) (p_gain p))
    else p_bad p.
Proof.
  intros E G i Hi. apply ray_ok in E. cbv zeta in E. destruct E as (_ & _ & _ & _ & _ & _ & _ & (y & Ef) & _).
  unfold fir_filter in Ef. cbn [seq forM] in Ef. apply bind_ok in Ef as (st & Ef & Ee).
  assert (L : length (map f32 dp) = length dp) by apply map_length.
  pose proof (fir_pass_nomiss p rng thsd sd (map f32 dp) (map (fun _ => p_bad p) dp) st) as P.
  rewrite !map_length in P. specialize (P eq_refl). injection Ee as ->.
  cbn [fst] in P. rewrite P; auto.
  - destruct (filtered _ _ _ _ _); auto. unfold at_. now rewrite (map_at _ dp fnan) by auto.
  - intros j Hj. unfold at_. rewrite (map_at f32 dp fnan) by auto. apply G; auto.
Qed.

(** ** Coefficients *)
Lemma coeff_first c c' t mem k : @coeff F Cython (c :: t) mem k = coeff Cython (c' :: t) mem k.
Proof. reflexivity. Qed.
Lemma fir_sum_ext bd (c c' : list F) (m m' : nat -> F) z i n :
  (forall k, (k < n)%nat -> coeff bd c m k = coeff bd c' m' k) -> fir_sum bd c m z i n = fir_sum bd c' m' z i n.
Proof.
  intro G. unfold fir_sum.
  assert (X : forall l a, (forall k, In k l -> coeff bd c m k = coeff bd c' m' k) ->
    fold_left (fun A k => loc bd (fadd A (loc bd (fmul (coeff bd c m k) (at_ z (i + k)))))) l a
    = fold_left (fun A k => loc bd (fadd A (loc bd (fmul (coeff bd c' m' k) (at_ z (i + k)))))) l a).
  { induction l as [|k l IH]; intros a Hl; cbn [fold_left]; auto. rewrite (Hl k) by (left; auto).
    apply IH. intros; apply Hl; right; auto. }
  apply X. intros k Hk. apply G. apply in_seq in Hk. lia.
Qed.
Lemma forM_ext {A S} (l : list A) (f g : A -> S -> res S) s : (forall x t, In x l -> f x t = g x t) -> forM l f s = forM l g s.
Proof.
  revert s; induction l as [|x l IH]; intros s G; simpl; auto. rewrite (G x) by (left; auto).
  destruct (g x s); simpl; auto. apply IH. intros; apply G; right; auto.
Qed.
Lemma ray_coeff_ext bd order gain (c c' : list F) (m m' : nat -> F) bad nadp0 dp dz rng thsd nf sg :
  (forall k, (k < 2 * (order / 2) + 1)%nat -> coeff bd c m k = coeff bd c' m' k) ->
  calc_kdp_ray_fir (mkpar bd order gain c m bad) nadp0 dp dz rng thsd nf sg
  = calc_kdp_ray_fir (mkpar bd order gain c' m' bad) nadp0 dp dz rng thsd nf sg.
Proof.
  intro G. unfold calc_kdp_ray_fir. cbv zeta. cbn [p_build p_order p_bad].
  destruct (_ || _)%bool; auto. destruct (mapM _ _) as [sd| | | |]; cbn [bind]; auto.
  assert (E : forall st, fir_filter (mkpar bd order gain c m bad) nf rng thsd sd st = fir_filter (mkpar bd order gain c' m' bad) nf rng thsd sd st).
  { intro st. unfold fir_filter. apply forM_ext. intros _ t _. unfold fir_pass. cbn [p_order]. cbv zeta. f_equal.
    apply forM_ext. intros i (z, y) _. unfold fir_gate. cbv zeta. cbn [p_build p_order p_bad p_gain p_coeff p_mem].
    destruct (good bad sd thsd z i); auto. destruct (500 <? _)%nat; auto. destruct (4 * order <? _)%nat; auto.
    match goal with |- bind ?x _ = bind ?x _ => destruct x; cbn [bind]; auto end.
    rewrite (fir_sum_ext bd c c' m m') by exact G. reflexivity. }
  rewrite E. reflexivity.
Qed.
End LawFree.

Open Scope R_scope.
(** ** The filter in exact arithmetic *)
(** what multiplies the phases of a window: the coefficients, or in the Cython
    build all but the first and then what follows them in memory *)
Definition weights (bd : build) (cs : list R) (after : R) : list R :=
  match bd with Cython => tl cs ++ [after] | Fortran => cs end.

Lemma coeff_weights bd (cs : list R) (m : nat -> R) n k : length cs = n -> (k < n)%nat ->
  coeff bd (map Fin cs) (fun k => Fin (m k)) k = Fin (nth k (weights bd cs (m n)) 0).
Proof.
  intros L Hk. unfold coeff, weights. destruct bd.
  - destruct cs as [|c t]; [simpl in L; lia|]. simpl in L. cbn [map nth_error tl]. rewrite map_nth_error'.
    destruct (nth_error t k) as [v|] eqn:E.
    + simpl. rewrite app_nth1 by (apply nth_error_lt in E; auto). now rewrite (nth_error_nth _ _ _ E).
    + simpl. apply nth_error_None in E. assert (k = length t) as -> by lia.
      rewrite app_nth2 by lia. rewrite Nat.sub_diag. simpl. now rewrite L.
  - rewrite map_nth_error'. destruct (nth_error cs k) as [v|] eqn:E.
    + simpl. now rewrite (nth_error_nth _ _ _ E).
    + apply nth_error_None in E. lia.
Qed.
Lemma weights_length bd cs a n : length cs = n -> (1 <= n)%nat -> length (weights bd cs a) = n.
Proof. intros L H. destruct bd; auto. simpl. rewrite app_length. destruct cs; simpl in *; lia. Qed.

Lemma dot_seq (w z : list R) n : length w = n -> length z = n ->
  dot w z = rsum (map (fun k => nth k w 0 * nth k z 0) (seq 0 n)).
Proof.
  revert z n; induction w as [|a w IH]; intros [|b z] n Hw Hz; simpl in *; subst; try discriminate; auto.
  unfold dot in *. cbn [combine map rsum fst snd seq]. f_equal. rewrite <- seq_shift, map_map.
  apply IH; lia.
Qed.

Lemma fir_sum_fin bd (cs : list R) (m : nat -> R) (dp : list R) i n :
  (i + n <= length dp)%nat -> length cs = n -> (1 <= n)%nat ->
  fir_sum bd (map Fin cs) (fun k => Fin (m k)) (map Fin dp) i n = Fin (dot (weights bd cs (m n)) (slice dp i n)).
Proof.
  intros Hi L Hn. assert (Ls : length (slice dp i n) = n).
  { unfold slice. rewrite firstn_length, skipn_length. lia. }
  rewrite (dot_seq _ _ n) by (auto using weights_length). unfold fir_sum.
  assert (X : forall l a, (forall k, In k l -> (k < n)%nat) ->
    fold_left (fun (A : xr) (k : nat) => loc bd (fadd A (loc bd (fmul (coeff bd (map Fin cs) (fun k => Fin (m k)) k) (at_ (map Fin dp) (i + k)))))) l (Fin a)
    = Fin (a + rsum (map (fun k => nth k (weights bd cs (m n)) 0 * nth k (slice dp i n) 0) l))).
  { induction l as [|k l IH]; intros a Hl; cbn [fold_left map rsum]; [f_equal; ring|].
    assert (Hk : (k < n)%nat) by (apply Hl; left; auto).
    rewrite !loc_xr, (coeff_weights bd cs m n) by auto. unfold at_. rewrite (map_at Fin dp 0) by lia.
    rewrite fmul_fin, fadd_fin. rewrite IH by (intros; apply Hl; right; auto). f_equal.
    rewrite (slice_nth dp 0) by lia. 
    assert (E : nth k (map (fun j => nth j dp 0) (seq i n)) 0 = nth (i + k) dp 0).
    { rewrite (map_at (fun j => nth j dp 0) (seq i n) 0%nat) by (rewrite seq_length; auto). now rewrite seq_nth by auto. }
    rewrite E. ring. }
  rewrite lit_int, X by (intros k Hk; apply in_seq in Hk; lia). f_equal. ring.
Qed.

(** a line through the filter *)
Lemma rsum_ext {A} (f g : A -> R) l : (forall x, In x l -> f x = g x) -> rsum (map f l) = rsum (map g l).
Proof. intro G. f_equal. apply map_ext_in. auto. Qed.
Lemma rsum_plus {A} (f g : A -> R) l : rsum (map (fun x => f x + g x) l) = rsum (map f l) + rsum (map g l).
Proof. induction l; simpl; lra. Qed.
Lemma rsum_mul {A} c (f : A -> R) l : rsum (map (fun x => c * f x) l) = c * rsum (map f l).
Proof. induction l; simpl; [ring|]. rewrite IHl. ring. Qed.
Lemma rsum_nth (w : list R) : rsum (map (fun k => nth k w 0) (seq 0 (length w))) = rsum w.
Proof. induction w as [|a w IH]; simpl; auto. rewrite <- seq_shift, map_map. now rewrite IH. Qed.
(** first moment about the middle of 2h+1 weights *)
Definition moment (h : nat) (w : list R) : R := rsum (map (fun k => (INR k - INR h) * nth k w 0) (seq 0 (2 * h + 1))).

Lemma dot_line (w : list R) h (dp : list R) a c r0 d i n :
  length w = (2 * h + 1)%nat -> length dp = n -> (h <= i)%nat -> (i + h < n)%nat ->
  (forall j, (j < n)%nat -> nth j dp 0 = a * gate_range r0 d j + c) ->
  dot w (slice dp (i - h) (2 * h + 1)) = (a * rsum w) * gate_range r0 d i + (a * d * moment h w + c * rsum w).
Proof.
  intros Lw Ld H1 H2 G.
  assert (Ls : length (slice dp (i - h) (2 * h + 1)) = (2 * h + 1)%nat).
  { unfold slice. rewrite firstn_length, skipn_length. lia. }
  rewrite (dot_seq _ _ (2 * h + 1)) by auto.
  rewrite (rsum_ext _ (fun k => (a * gate_range r0 d i + c) * nth k w 0 + (a * d) * ((INR k - INR h) * nth k w 0))).
  - rewrite rsum_plus, !rsum_mul. fold (moment h w). rewrite <- Lw at 1. rewrite rsum_nth. ring.
  - intros k Hk. apply in_seq in Hk. rewrite (slice_nth dp 0) by lia.
    rewrite (map_at (fun j => nth j dp 0) (seq (i - h) (2 * h + 1)) 0%nat) by (rewrite seq_length; lia).
    rewrite seq_nth by lia. rewrite G by lia. unfold gate_range. rewrite plus_INR, minus_INR by auto. ring.
Qed.

Lemma rsum_rev l : rsum (rev l) = rsum l.
Proof. induction l; simpl; auto. rewrite rsum_app. simpl. lra. Qed.
Lemma moment_sym h w : length w = (2 * h + 1)%nat -> rev w = w -> moment h w = 0.
Proof.
  intros L Sym. assert (E : moment h w = - moment h w); [|lra].
  unfold moment at 1. rewrite <- (rsum_rev (map _ _)).
  assert (R1 : rev (map (fun k => (INR k - INR h) * nth k w 0) (seq 0 (2 * h + 1)))
    = map (fun k => -1 * ((INR k - INR h) * nth k w 0)) (seq 0 (2 * h + 1))).
  { apply nth_error_ext. intro k. destruct (lt_dec k (2 * h + 1)) as [Hk|Hk].
    - rewrite (nth_error_nth' _ 0) by (rewrite rev_length, map_length, seq_length; auto).
      rewrite rev_nth by (rewrite map_length, seq_length; auto). rewrite map_length, seq_length.
      rewrite map_nth_error', seq_nth_error by auto. simpl option_map. f_equal.
      rewrite (map_at (fun k => (INR k - INR h) * nth k w 0) (seq 0 (2*h+1)) 0%nat) by (rewrite seq_length; lia).
      rewrite seq_nth by lia. rewrite <- Sym at 1. rewrite rev_nth by lia. rewrite L.
      replace (0 + (2 * h + 1 - S k))%nat with (2 * h - k)%nat by lia.
      replace (2 * h + 1 - S (2 * h - k))%nat with k by lia.
      rewrite minus_INR by lia. rewrite mult_INR. simpl (INR 2). ring.
    - rewrite !(proj2 (nth_error_None _ k)); auto; rewrite ?rev_length, map_length, seq_length; lia. }
  rewrite R1, rsum_mul. fold (moment h w). ring.
Qed.

(** ** KDP of phases on a line *)
Lemma zrange_in_nodup a n : NoDup (zrange_aux a n).
Proof.
  revert a; induction n; intro a; simpl; constructor; auto.
  rewrite zrange_aux_In. lia.
Qed.

Lemma kd_gate_line bd b (rng : list R) (dl : list xr) n a c nadp i :
  length dl = n -> (n <= length rng)%nat ->
  (forall j k, (j < n)%nat -> (k < n)%nat -> nth j rng 0 = nth k rng 0 -> j = k) ->
  (forall j, (j < n)%nat -> kept bd b (nth j rng 0, a * nth j rng 0 + c) = true \/ at_ dl j = Fin b) ->
  (forall j, (j < n)%nat -> at_ dl j = Fin b \/ at_ dl j = Fin (a * nth j rng 0 + c)) ->
  (2 <= nadp \/ bd = Cython /\ 0 <= nadp)%Z ->
  kd_gate bd (Fin b) (map Fin rng) dl nadp i =
    let N := length (kd_valid bd (Fin b) dl nadp i) in
    if (500 <? N)%nat then Fault else
    if (4 * nadp <? 5 * Z.of_nat N)%Z then Ok (Fin (a / 2)) else Ok (Fin b).
Proof.
  intros Ld Lr Inj Kp Ln Hn. rewrite kd_gate_eq. cbv zeta.
  set (js := kd_valid bd (Fin b) dl nadp i).
  destruct (500 <? length js)%nat; auto. destruct (Z.ltb_spec (4 * nadp) (5 * Z.of_nat (length js))) as [Hc|]; auto.
  assert (Hj : forall j, In j js -> (0 <= j < Z.of_nat n)%Z /\ feq (at_ dl (Z.to_nat j)) (Fin b) = false).
  { intros j Hj. unfold js, kd_valid in Hj. apply filter_In in Hj as (Hj & V). apply negb_true_iff in V. split; auto.
    unfold kd_js in Hj. cbv zeta in Hj. destruct ((0 <=? _) && _)%Z%bool eqn:Eb; [|destruct Hj].
    apply andb_prop in Eb as (E1 & E2). apply Z.leb_le in E1. apply Z.leb_le in E2. apply zrange_In in Hj.
    rewrite Ld in E2. destruct bd; lia. }
  assert (ND : NoDup js).
  { apply NoDup_filter. unfold kd_js. cbv zeta. destruct (_ && _)%bool; [apply zrange_in_nodup|constructor]. }
  assert (N2 : (2 <= length js)%nat).
  { destruct Hn as [Hn|(-> & Hn)]; [lia|].
    destruct (Z.leb_spec 2 nadp); [lia|]. exfalso.
    assert (length js <= 0)%nat; [|lia].
    unfold js, kd_valid. etransitivity; [apply filter_len|]. etransitivity; [apply kd_js_len|]. cbn [half_of].
    assert (nadp / 2 = 0)%Z as ->; [|lia]. apply Z.div_small. lia. }
  set (pts := map (fun j => (nth (Z.to_nat j) rng 0, a * nth (Z.to_nat j) rng 0 + c)) js).
  assert (Ep : map (fun j => (at_ (map Fin rng) (Z.to_nat j), at_ dl (Z.to_nat j))) js = map pt pts).
  { unfold pts. rewrite map_map. apply map_ext_in. intros j HJ. destruct (Hj j HJ) as (HJ1 & HJ2).
    unfold pt. cbn [fst snd]. f_equal.
    - unfold at_. rewrite (map_at Fin rng 0) by lia. auto.
    - destruct (Ln (Z.to_nat j)) as [E|E]; [lia| |auto]. rewrite E in HJ2. cbn in HJ2.
      rewrite (proj2 (Reqb_true b b)) in HJ2 by auto. discriminate. }
  rewrite Ep.
  assert (EK : filter (kept bd b) pts = pts).
  { apply filter_all. intros q Hq. unfold pts in Hq. apply in_map_iff in Hq as (j & <- & HJ). destruct (Hj j HJ) as (HJ1 & HJ2).
    destruct (Kp (Z.to_nat j)) as [E|E]; [lia|auto|]. rewrite E in HJ2. cbn in HJ2.
    rewrite (proj2 (Reqb_true b b)) in HJ2 by auto. discriminate. }
  assert (D : ldet (filter (kept bd b) pts) <> 0).
  { rewrite EK. intro D. apply ldet_same_x in D. destruct js as [|j1 [|j2 js']] eqn:Ejs; try (simpl in N2; lia).
    assert (I1 : In j1 (j1 :: j2 :: js')) by (left; auto). assert (I2 : In j2 (j1 :: j2 :: js')) by (right; left; auto).
    pose proof (D _ _ (in_map _ _ _ I1) (in_map _ _ _ I2)) as E. cbn [fst] in E.
    destruct (Hj j1 I1), (Hj j2 I2). apply Inj in E; [|lia|lia].
    inversion ND as [|? ? NI _]. apply NI. left. lia. }
  rewrite LSE_fin by exact D.
  destruct (line_exact (filter (kept bd b) pts) a c D) as (El & _).
  { rewrite EK. intros q Hq. unfold pts in Hq. apply in_map_iff in Hq as (j & <- & HJ). reflexivity. }
  cbn [bind fst]. rewrite El. change (@f32 xr _) with (fun x : xr => x). cbv beta. rewrite lit_fin, fmul_fin.
  do 2 f_equal. cbn [Qnum Qden]. field.
Qed.

(** ** The Cython build on finite data never fails *)
Definition finl (l : list xr) : Prop := forall j, (j < length l)%nat -> exists r, at_ l j = Fin r.
Definition rv (x : xr) : R := match x with Fin r => r | _ => 0 end.

Lemma finl_map l : finl (map Fin l).
Proof. intros j Hj. rewrite map_length in Hj. exists (nth j l 0). unfold at_. now rewrite (map_at Fin l 0). Qed.
Lemma finl_inv l : finl l -> l = map Fin (map rv l).
Proof.
  intro G. apply nth_error_ext. intro j. rewrite !map_nth_error'. destruct (nth_error l j) as [x|] eqn:E; auto. simpl.
  destruct (G j) as (r & Er); [eapply nth_error_lt; eauto|]. unfold at_ in Er. rewrite (nth_error_nth _ _ _ E) in Er. now subst.
Qed.

Section Total.
Variables (b : R) (rng : list R) (n : nat).
Hypothesis Lr : (n <= length rng)%nat.
Hypothesis Inj : forall j k, (j < n)%nat -> (k < n)%nat -> nth j rng 0 = nth k rng 0 -> j = k.
Hypothesis Rb : forall j, (j < n)%nat -> nth j rng 0 <> b.

Lemma LSE_points (z : list xr) (js : list nat) : length z = n -> finl z -> NoDup js ->
  (forall j, In j js -> (j < n)%nat /\ feq (at_ z j) (Fin b) = false) -> (2 <= length js)%nat ->
  exists a c, LSE Cython (Fin b) (map (fun j => (at_ (map Fin rng) j, at_ z j)) js) = Ok (Fin a, Fin c).
Proof.
  intros Lz Fz ND Hj N2. set (pts := map (fun j => (nth j rng 0, rv (at_ z j))) js).
  assert (Ep : map (fun j => (at_ (map Fin rng) j, at_ z j)) js = map pt pts).
  { unfold pts. rewrite map_map. apply map_ext_in. intros j HJ. destruct (Hj j HJ) as (HJ1 & _).
    unfold pt. cbn [fst snd]. f_equal.
    - unfold at_. rewrite (map_at Fin rng 0) by lia. auto.
    - destruct (Fz j) as (r & ->); [lia|reflexivity]. }
  rewrite Ep.
  assert (EK : filter (kept Cython b) pts = pts).
  { apply filter_all. intros q Hq. unfold pts in Hq. apply in_map_iff in Hq as (j & <- & HJ).
    destruct (Hj j HJ) as (HJ1 & HJ2). unfold kept. cbn [fst snd]. unfold differs.
    destruct (Req_EM_T (nth j rng 0) b) as [e|]; [now apply Rb in e|].
    destruct (Fz j) as (r & Er); [lia|]. rewrite Er in *. cbn [rv] in *. rewrite feq_fin in HJ2. apply Reqb_false in HJ2.
    destruct (Req_EM_T r b); [contradiction|reflexivity]. }
  assert (D : ldet (filter (kept Cython b) pts) <> 0).
  { rewrite EK. intro D. apply ldet_same_x in D. destruct js as [|j1 [|j2 js']] eqn:Ejs; try (simpl in N2; lia).
    assert (I1 : In j1 (j1 :: j2 :: js')) by (left; auto). assert (I2 : In j2 (j1 :: j2 :: js')) by (right; left; auto).
    pose proof (D _ _ (in_map _ _ _ I1) (in_map _ _ _ I2)) as E. cbn [fst] in E.
    destruct (Hj j1 I1), (Hj j2 I2). apply Inj in E; auto.
    inversion ND as [|? ? NI _]. apply NI. left. auto. }
  rewrite LSE_fin by exact D. eauto.
Qed.

Definition p_fin (p : par xr) (half : nat) : Prop :=
  p_build p = Cython /\ p_order p = (2 * half)%nat /\ (half <= 167)%nat /\ p_bad p = Fin b /\
  (exists g, p_gain p = Fin g) /\ (exists cs, p_coeff p = map Fin cs) /\ (forall k, exists m, p_mem p k = Fin m).

Lemma half_order h : (2 * h / 2 = h)%nat.
Proof. rewrite Nat.mul_comm. now apply Nat.div_mul. Qed.

Lemma fir_sum_finite bd cs (mem : nat -> xr) z i m : (forall k, exists v, mem k = Fin v) ->
  finl z -> (i + m <= length z)%nat -> exists r, fir_sum bd (map Fin cs) mem z i m = Fin r.
Proof.
  intros Hm Fz Hi. unfold fir_sum. rewrite lit_int.
  assert (X : forall l a, (forall k, In k l -> (k < m)%nat) -> exists r,
    fold_left (fun (A : xr) (k : nat) => loc bd (fadd A (loc bd (fmul (coeff bd (map Fin cs) mem k) (at_ z (i + k)))))) l (Fin a) = Fin r).
  { induction l as [|k l IH]; intros a Hl; cbn [fold_left]; [eauto|].
    assert (Hk : (k < m)%nat) by (apply Hl; left; auto).
    assert (Ck : exists v, coeff bd (map Fin cs) mem k = Fin v).
    { unfold coeff. rewrite map_nth_error'. destruct (nth_error cs _); simpl; eauto. }
    destruct Ck as (v & ->). destruct (Fz (i + k)%nat) as (r & ->); [lia|]. rewrite !loc_xr, fmul_fin, fadd_fin.
    apply IH. intros; apply Hl; right; auto. }
  apply X. intros k Hk; apply in_seq in Hk; lia.
Qed.

Lemma finl_upd l i r : finl l -> finl (upd i (Fin r) l).
Proof.
  intros G j Hj. rewrite upd_length in Hj. rewrite upd_at. destruct (_ && _)%bool; eauto.
Qed.

Lemma fir_gate_total p half thsd sd i z y : p_fin p half -> length z = n -> finl z -> finl y ->
  (half <= i)%nat -> (i + half < n)%nat ->
  exists z' y', fir_gate p (map Fin rng) thsd sd i (z, y) = Ok (z', y') /\ length z' = n /\ finl z' /\ finl y' /\ length y' = length y.
Proof.
  intros (Eb & Eo & Hh & Ebad & (g & Eg) & (cs & Ec) & Em) Lz Fz Fy H1 H2. unfold fir_gate. cbv zeta.
  rewrite Eo, half_order, Eb, Ebad. destruct (good (Fin b) sd thsd z i) eqn:Gi; [|exists z, y; auto].
  set (js := filter (good (Fin b) sd thsd z) (seq (i - half) (2 * half + 1))).
  assert (Lj : (length js <= 2 * half + 1)%nat).
  { unfold js. etransitivity; [apply filter_len|]. now rewrite seq_length. }
  rewrite map_length. destruct (Nat.ltb_spec 500 (length js)); [lia|].
  destruct (Nat.ltb_spec (4 * (2 * half)) (5 * length js)) as [Hc|]; [|exists z, y; auto].
  assert (Zok : exists z', (if (length js <? 2 * half + 1)%nat
     then ab <- LSE Cython (Fin b) (map (fun j => (at_ (map Fin rng) j, at_ z j)) js) ;;
       Ok (fill Cython (Fin b) (fst ab) (snd ab) (map Fin rng) (i - half) (2 * half + 1) z) else Ok z) = Ok z'
     /\ length z' = n /\ finl z').
  { destruct (Nat.ltb_spec (length js) (2 * half + 1)) as [Hl|]; [|eauto].
    destruct (LSE_points z js) as (a & c & El); auto.
    - apply NoDup_filter, seq_NoDup.
    - intros j Hj. apply filter_In in Hj as (Hj & Gj). apply in_seq in Hj. split; [lia|].
      unfold good in Gj. apply andb_prop in Gj as (_ & Gj). now apply negb_true_iff in Gj.
    - lia.
    - rewrite El. cbn [bind fst snd]. eexists. split; [reflexivity|]. rewrite fill_length. split; auto.
      intros j Hj. rewrite fill_length in Hj. rewrite fill_at by auto.
      destruct (_ && _)%bool; [|apply Fz; auto]. unfold at_. rewrite (map_at Fin rng 0) by lia.
      rewrite loc_xr, fmul_fin, fadd_fin. eexists. reflexivity. }
  destruct Zok as (z' & -> & Lz' & Fz'). cbn [bind]. rewrite Ec, Eg.
  destruct (fir_sum_finite Cython cs (p_mem p) z' (i - half) (2 * half + 1) Em Fz') as (r & ->); [lia|].
  rewrite fmul_fin. exists z'. eexists. split; [reflexivity|]. rewrite upd_length. repeat split; auto. now apply finl_upd.
Qed.

Lemma fir_filter_total p half nf thsd sd z y : p_fin p half -> length z = n -> length y = n -> finl z -> finl y ->
  exists st, fir_filter p nf (map Fin rng) thsd sd (z, y) = Ok st /\ length (fst st) = n /\ finl (fst st).
Proof.
  intros P Lz Ly Fz Fy.
  set (Inv := fun st : list xr * list xr => length (fst st) = n /\ length (snd st) = n /\ finl (fst st) /\ finl (snd st)).
  destruct (forM_ok Inv (seq 0 nf) (fun _ => fir_pass p (map Fin rng) thsd sd) (z, y)) as (st & E & I1 & _ & I3 & _).
  - repeat split; auto.
  - intros _ (z1, y1) _ (A1 & A2 & A3 & A4). cbn [fst snd] in *. unfold fir_pass. cbv zeta. cbn [fst].
    destruct (forM_ok Inv (seq (p_order p / 2) (length z1 - p_order p / 2 - p_order p / 2)) (fir_gate p (map Fin rng) thsd sd) (z1, y1)) as (st & E & B1 & B2 & B3 & B4).
    + repeat split; auto.
    + intros i (z2, y2) Hi (C1 & C2 & C3 & C4). cbn [fst snd] in *. apply in_seq in Hi.
      pose proof P as (_ & Eo & _). rewrite Eo, half_order in Hi.
      destruct (fir_gate_total p half thsd sd i z2 y2) as (z' & y' & E & D1 & D2 & D3 & D4); auto; try lia.
      exists (z', y'). split; auto. repeat split; auto. cbn [snd]. lia.
    + rewrite E. cbn [bind]. eexists. split; [reflexivity|]. repeat split; auto.
  - exists st. auto.
Qed.

Lemma kd_gate_total (dl : list xr) nadp i : length dl = n -> finl dl -> (0 <= nadp <= 501)%Z ->
  exists r, kd_gate Cython (Fin b) (map Fin rng) dl nadp i = Ok (Fin r).
Proof.
  intros Ld Fd Hn. rewrite kd_gate_eq. cbv zeta. set (js := kd_valid Cython (Fin b) dl nadp i).
  assert (Lj : (length js <= Z.to_nat (2 * (nadp / 2) + 0))%nat).
  { unfold js, kd_valid. etransitivity; [apply filter_len|]. apply (kd_js_len Cython). }
  assert (nadp / 2 < 251)%Z by (apply Z.div_lt_upper_bound; lia).
  destruct (Nat.ltb_spec 500 (length js)); [lia|].
  destruct (Z.ltb_spec (4 * nadp) (5 * Z.of_nat (length js))) as [Hc|]; [|eauto].
  assert (N2 : (2 <= length js)%nat).
  { destruct (Z.leb_spec 2 nadp); [lia|]. rewrite Z.div_small in Lj by lia. lia. }
  assert (Hj : forall j, In j js -> (0 <= j < Z.of_nat n)%Z /\ feq (at_ dl (Z.to_nat j)) (Fin b) = false).
  { intros j Hj. unfold js, kd_valid in Hj. apply filter_In in Hj as (Hj & V). apply negb_true_iff in V. split; auto.
    unfold kd_js in Hj. cbv zeta in Hj. destruct ((0 <=? _) && _)%Z%bool eqn:Eb; [|destruct Hj].
    apply andb_prop in Eb as (E1 & E2). apply Z.leb_le in E1. apply Z.leb_le in E2. apply zrange_In in Hj.
    rewrite Ld in E2. lia. }
  assert (ND : NoDup (map Z.to_nat js)).
  { assert (G : forall l, (forall j, In j l -> (0 <= j)%Z) -> NoDup l -> NoDup (map Z.to_nat l)).
    { induction l as [|x l IH]; intros Hl N; simpl; constructor; inversion N; subst.
      - intro I. apply in_map_iff in I as (y & E & Iy). assert (0 <= x)%Z by (apply Hl; left; auto).
        assert (0 <= y)%Z by (apply Hl; right; auto). assert (x = y) by lia. subst. contradiction.
      - apply IH; auto. intros; apply Hl; right; auto. }
    apply G. { intros j HJ. apply Hj in HJ. lia. }
    apply NoDup_filter. unfold kd_js. cbv zeta. destruct (_ && _)%bool; [apply zrange_in_nodup|constructor]. }
  destruct (LSE_points dl (map Z.to_nat js)) as (a & c & E); auto.
  - intros j HJ. apply in_map_iff in HJ as (k & <- & HJ). destruct (Hj k HJ). split; auto. lia.
  - now rewrite map_length.
  - rewrite map_map in E. rewrite E. cbn [bind fst]. rewrite lit_fin, fmul_fin. eexists. reflexivity.
Qed.

Lemma ray_total p half nadp0 (dp dz : list R) thsd nf h : p_fin p half -> length dp = n -> (n <= length dz)%nat -> (n <= length thsd)%nat ->
  exists kd dl sd, calc_kdp_ray_fir p nadp0 (map Fin dp) (map Fin dz) (map Fin rng) thsd nf (2 * Z.of_nat h + 1)
    = Ok (map Fin kd, map Fin dl, map Fin sd).
Proof.
  intros P Ld Lz Lt. pose proof P as (Eb & Eo & Hh & Ebad & _).
  unfold calc_kdp_ray_fir. cbv zeta. rewrite !map_length.
  destruct (Nat.ltb_spec (length dz) (length dp)); [lia|].
  destruct (Nat.ltb_spec (length rng) (length dp)); [lia|].
  destruct (Nat.ltb_spec (length thsd) (length dp)); [lia|]. cbn [orb].
  rewrite half_odd, Ebad, Eb.
  assert (Es : mapM (sd_gate Cython (Z.of_nat h) (Fin b) (map Fin dp)) (seq 0 (length dp))
    = Ok (map Fin (map (sd_spec h b dp) (seq 0 (length dp))))).
  { induction (seq 0 (length dp)) as [|i l IH]; [reflexivity|]. cbn [mapM map]. rewrite sd_gate_spec, IH. reflexivity. }
  rewrite Es. cbn [bind]. set (sd := map (sd_spec h b dp) (seq 0 (length dp))).
  change (@f32 xr _) with (fun x : xr => x). rewrite map_id.
  destruct (fir_filter_total p half nf thsd (map Fin sd) (map Fin dp) (map (fun _ => Fin b) (map Fin dp))) as (st & -> & Ls & Fs); auto.
  - now rewrite map_length.
  - now rewrite !map_length.
  - apply finl_map.
  - rewrite map_map. rewrite <- (map_map (fun _ => b) Fin). apply finl_map.
  - cbn [bind]. rewrite kd_loop.
    assert (Ek : exists kd, mapM (kd_val Cython (p_order p / 2) (Fin b) (map Fin rng) (fst st) (map Fin dz) nadp0) (seq 0 (length dp)) = Ok (map Fin kd)).
    { assert (G : forall l, (forall i, In i l -> (i < n)%nat) -> exists kd, mapM (kd_val Cython (p_order p / 2) (Fin b) (map Fin rng) (fst st) (map Fin dz) nadp0) l = Ok (map Fin kd)).
      { induction l as [|i l IH]; intro Hl; [exists []; reflexivity|]. cbn [mapM].
        assert (Hi : (i < n)%nat) by (apply Hl; left; auto).
        assert (Ei : exists r, kd_val Cython (p_order p / 2) (Fin b) (map Fin rng) (fst st) (map Fin dz) nadp0 i = Ok (Fin r)).
        { unfold kd_val. destruct (feq _ _); [eauto|]. apply kd_gate_total; auto.
          rewrite Eo, half_order. assert (Az : at_ (map Fin dz) i = Fin (nth i dz 0)) by (unfold at_; now rewrite (map_at Fin dz 0) by lia). rewrite Az.
          assert (NR : forall m : Z, (0 <= new_nadp half (Fin (nth i dz 0%R)) m <= 501)%Z).
          { intro m. unfold new_nadp. rewrite !lit_int, !fle_fin, !flt_fin.
            destruct (Rleb_spec 45 (nth i dz 0)), (Rleb_spec 35 (nth i dz 0)), (Rltb_spec (nth i dz 0) 45), (Rltb_spec (nth i dz 0) 35); cbn [andb]; lra || lia. }
          apply NR. }
        destruct Ei as (r & ->). cbn [bind]. destruct IH as (kd & ->); [intros; apply Hl; right; auto|]. cbn [bind].
        exists (r :: kd). reflexivity. }
      apply G. intros i Hi. apply in_seq in Hi. lia. }
    destruct Ek as (kd & ->). cbn [bind snd]. exists kd, (map rv (fst st)), sd. rewrite <- finl_inv by auto. reflexivity.
Qed.
End Total.
