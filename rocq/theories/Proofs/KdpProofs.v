(** calc_kdp_ray_fir for any float arithmetic: lengths, where filtered phase and
    KDP are the missing value, memory safety. *)
From Coq Require Import Lia Arith.
From Verif Require Import Base.Num Base.ListFacts Base.Pointwise.
From Verif Require Import Model.Tables Model.Beta Model.Melt Model.Kdp.
From Verif Require Import Proofs.HidProofs Proofs.SummerProofs.

Section LawFree.
Context {F : Type} {fo : FloatOps F}.

Lemma upd_length i v (l : list F) : length (upd i v l) = length l.
Proof. revert i; induction l; intros [|i]; simpl; auto. Qed.
Lemma upd_at i v (l : list F) j : at_ (upd i v l) j = if ((i =? j) && (i <? length l))%nat%bool then v else at_ l j.
Proof.
  unfold at_. revert i j; induction l as [|x l IH]; intros i j; simpl.
  - destruct i, j; simpl; rewrite ?andb_false_r; auto.
  - destruct i as [|i], j as [|j]; simpl; auto. rewrite IH. now destruct (i =? j)%nat.
Qed.
Lemma fill_length bd bad aa bb rng i1 n (z : list F) : length (fill bd bad aa bb rng i1 n z) = length z.
Proof. unfold fill. now rewrite map_length, seq_length. Qed.
Lemma fill_at bd bad aa bb rng i1 n (z : list F) j : (j < length z)%nat ->
  at_ (fill bd bad aa bb rng i1 n z) j
  = if ((i1 <=? j)%nat && (j <? i1 + n)%nat && feq (at_ z j) bad)%bool
    then f32 (fadd (loc bd (fmul aa (at_ rng j))) bb) else at_ z j.
Proof.
  intro L. unfold at_ at 1, fill. erewrite nth_error_nth; [reflexivity|].
  rewrite map_nth_error', seq_nth_error by auto. reflexivity.
Qed.
Lemma map_at {A B} (f : A -> B) l d d' j : (j < length l)%nat -> nth j (map f l) d' = f (nth j l d).
Proof. intro L. rewrite (nth_indep _ d' (f d)) by now rewrite map_length. apply map_nth. Qed.

(** a gate the filter leaves alone: within half a window of an end, or too noisy *)
Definition untouched (half n : nat) (sd thsd : list F) (i : nat) : bool :=
  ((i <? half) || (n <=? i + half) || negb (fle (at_ sd i) (at_ thsd i)))%nat%bool.

Definition stlen (n : nat) (st : list F * list F) : Prop := length (fst st) = n /\ length (snd st) = n.

Lemma fir_gate_shape p rng thsd sd i st st' : fir_gate p rng thsd sd i st = Ok st' ->
  length (fst st') = length (fst st) /\ length (snd st') = length (snd st) /\
  (forall j, j <> i -> at_ (snd st') j = at_ (snd st) j) /\
  (fle (at_ sd i) (at_ thsd i) = false -> st' = st).
Proof.
  destruct st as (z, y). unfold fir_gate.
  destruct (good (p_bad p) sd thsd z i) eqn:G.
  2:{ intro E. injection E as <-. repeat split; auto. }
  cbv zeta. destruct (500 <? _)%nat; [discriminate|]. destruct (_ <? 5 * _)%nat.
  2:{ intro E. injection E as <-. repeat split; auto. }
  intro E. apply bind_ok in E as (z' & Ez & E). injection E as <-. cbn [fst snd].
  assert (Lz : length z' = length z).
  { destruct (_ <? p_order p + 1)%nat.
    - apply bind_ok in Ez as (ab & _ & Ez). injection Ez as <-. apply fill_length.
    - injection Ez as <-. auto. }
  repeat split; auto using upd_length.
  - intros j Hj. rewrite upd_at. destruct (Nat.eqb_spec i j); [congruence|auto].
  - intro N. unfold good in G. rewrite N in G. discriminate.
Qed.

Lemma fir_pass_inv p rng thsd sd st st' n : stlen n st ->
  (forall i, (i < n)%nat -> untouched (p_order p / 2) n sd thsd i = true -> at_ (snd st) i = p_bad p) ->
  fir_pass p rng thsd sd st = Ok st' ->
  stlen n st' /\ fst st' = snd st' /\
  (forall i, (i < n)%nat -> untouched (p_order p / 2) n sd thsd i = true -> at_ (snd st') i = p_bad p).
Proof.
  intros (Hz & Hy) Hb E. unfold fir_pass in E. apply bind_ok in E as (t & E & E'). injection E' as <-. cbn [fst snd].
  set (P := fun s => stlen n s /\ forall i, (i < n)%nat -> untouched (p_order p / 2) n sd thsd i = true -> at_ (snd s) i = p_bad p).
  assert (Pt : P t).
  { eapply (forM_inv P); [| |exact E].
    - split; [split|]; auto.
    - intros x s s' Hx ((Hs1 & Hs2) & Hs3) Es. apply fir_gate_shape in Es as (L1 & L2 & K1 & K2).
      split; [split; congruence|]. intros i Hi U. destruct (Nat.eq_dec i x) as [->|N].
      + apply in_seq in Hx. unfold untouched in U. rewrite Hz in Hx.
        destruct (Nat.ltb_spec x (p_order p / 2)); [lia|].
        destruct (Nat.leb_spec n (x + p_order p / 2)); [lia|]. cbn [orb] in U.
        apply negb_true_iff in U. rewrite (K2 U). apply Hs3; auto.
        unfold untouched. rewrite U, !orb_true_r. auto.
      + rewrite K1 by auto. auto. }
  destruct Pt as ((P1 & P2) & P3). repeat split; auto.
Qed.

Lemma fir_filter_inv p nf rng thsd sd z st' n : length z = n ->
  fir_filter p nf rng thsd sd (z, map (fun _ => p_bad p) z) = Ok st' ->
  length (fst st') = n /\ (nf = 0%nat -> fst st' = z) /\
  ((1 <= nf)%nat -> forall i, (i < n)%nat -> untouched (p_order p / 2) n sd thsd i = true -> at_ (fst st') i = p_bad p).
Proof.
  intros Lz E. unfold fir_filter in E.
  destruct nf as [|nf].
  { simpl in E. injection E as <-. repeat split; auto. lia. }
  set (P := fun s => stlen n s /\ forall i, (i < n)%nat -> untouched (p_order p / 2) n sd thsd i = true -> at_ (snd s) i = p_bad p).
  assert (P0 : P (z, map (fun _ => p_bad p) z)).
  { split; [split; cbn [fst snd]; rewrite ?map_length; auto|]. intros i Hi _. cbn [snd]. unfold at_.
    rewrite (map_at (fun _ => p_bad p) z fnan) by lia. auto. }
  set (st0 := (z, map (fun _ => p_bad p) z)) in *. clearbody st0. clear Lz.
  cbn [seq forM] in E. apply bind_ok in E as (st1 & E1 & E).
  set (P' := fun s => P s /\ fst s = snd s).
  assert (P1 : P' st1).
  { destruct P0 as (A & B). destruct (fir_pass_inv _ _ _ _ _ _ _ A B E1) as (? & ? & ?). repeat split; auto; apply H. }
  assert (P2 : P' st').
  { eapply (forM_inv P'); [exact P1| |exact E].
    intros x s s' _ ((A & B) & _) Es. destruct (fir_pass_inv _ _ _ _ _ _ _ A B Es) as (? & ? & ?). repeat split; auto; apply H. }
  destruct P2 as (((L1 & L2) & B) & Eq). split; auto. split; [lia|]. intros _. rewrite Eq. auto.
Qed.

(** ** The KDP loop *)
(** nadp on entry to gate i *)
Fixpoint nadp_at (half : nat) (bad : F) (dz : list F) (nadp0 : Z) (i : nat) : Z :=
  match i with
  | O => nadp0
  | S k => let m := nadp_at half bad dz nadp0 k in
           if feq (at_ dz k) bad then m else new_nadp half (at_ dz k) m
  end.
(** KDP of gate i *)
Definition kd_val (bd : build) (half : nat) (bad : F) (rng dl dz : list F) (nadp0 : Z) (i : nat) : res F :=
  if feq (at_ dz i) bad then Ok bad
  else kd_gate bd bad rng dl (new_nadp half (at_ dz i) (nadp_at half bad dz nadp0 i)) i.

Lemma kd_loop bd half bad (rng dl dz : list F) nadp0 n :
  forM (seq 0 n) (kd_step bd half bad rng dl dz) (nadp0, [])
  = (ks <- mapM (kd_val bd half bad rng dl dz nadp0) (seq 0 n) ;;
     Ok (nadp_at half bad dz nadp0 n, ks)).
Proof.
  assert (G : forall n, forM (seq 0 n) (kd_step bd half bad rng dl dz) (nadp0, [])
    = (ks <- mapM (kd_val bd half bad rng dl dz nadp0) (seq 0 n) ;; Ok (nadp_at half bad dz nadp0 n, ks))); [|apply G].
  clear n. intro n. induction n as [|n IH]; [reflexivity|].
  rewrite seq_S, forM_app, IH. cbn [plus]. clear IH.
  assert (MA : forall (f : nat -> res F) l x, mapM f (l ++ [x]) = (ys <- mapM f l ;; y <- f x ;; Ok (ys ++ [y]))).
  { intros f l x. induction l as [|a l IHl]; simpl.
    - destruct (f x); reflexivity.
    - rewrite IHl. destruct (f a); simpl; auto. destruct (mapM f l); simpl; auto. destruct (f x); reflexivity. }
  rewrite MA. destruct (mapM _ (seq 0 n)) as [ks| | | |]; cbn [bind]; auto.
  cbn [forM bind]. unfold kd_step, kd_val. cbn [nadp_at]. cbv zeta.
  destruct (feq (at_ dz n) bad); cbn [bind]; auto.
  destruct (kd_gate _ _ _ _ _ _); reflexivity.
Qed.

(** the call, unfolded once *)
Lemma ray_ok p nadp0 dp dz rng thsd nf sg (kd dl sd : list F) :
  calc_kdp_ray_fir p nadp0 dp dz rng thsd nf sg = Ok (kd, dl, sd) ->
  let n := length dp in
  let half := (p_order p / 2)%nat in
  (n <= length dz)%nat /\ (n <= length rng)%nat /\ (n <= length thsd)%nat /\
  length kd = n /\ length dl = n /\ length sd = n /\
  (forall i, (i < n)%nat -> sd_gate (p_build p) (half_of (p_build p) (sg - 1)) (p_bad p) dp i = Ok (at_ sd i)) /\
  (exists y, fir_filter p nf rng thsd sd (map f32 dp, map (fun _ => p_bad p) dp) = Ok (dl, y)) /\
  (forall i, (i < n)%nat -> kd_val (p_build p) half (p_bad p) rng dl dz nadp0 i = Ok (at_ kd i)).
Proof.
  intros E. cbv zeta. unfold calc_kdp_ray_fir in E. cbv zeta in E.
  destruct (Nat.ltb_spec (length dz) (length dp)); [discriminate|].
  destruct (Nat.ltb_spec (length rng) (length dp)); [discriminate|].
  destruct (Nat.ltb_spec (length thsd) (length dp)); [discriminate|]. cbn [orb] in E.
  apply bind_ok in E as (sd' & Es & E). apply bind_ok in E as (st & Ef & E).
  rewrite kd_loop in E. apply bind_ok in E as (kr & Ek & E). apply bind_ok in Ek as (ks & Ek & E').
  injection E' as <-. cbn [snd] in E. injection E as <- <- <-.
  apply mapM_ok in Es as (Ls & Gs). apply mapM_ok in Ek as (Lk & Gk). rewrite seq_length in *.
  assert (Lz : length (map f32 dp) = length dp) by apply map_length.
  assert (Emap : map (fun _ : F => p_bad p) dp = map (fun _ => p_bad p) (map f32 dp)) by now rewrite map_map.
  pose proof Ef as Ef'. rewrite Emap in Ef'.
  destruct (fir_filter_inv _ _ _ _ _ _ _ _ Lz Ef') as (Ld & _).
  assert (AT : forall (l : list F) i v, nth_error l i = Some v -> at_ l i = v).
  { intros l i v Hv. unfold at_. now apply nth_error_nth. }
  repeat match goal with |- _ /\ _ => split end; auto; try lia.
  - intros i Hi. destruct (Gs i i) as (y & Hy & Ey); [now apply seq_nth_error|]. now rewrite (AT _ _ _ Hy).
  - exists (snd st). destruct st; auto.
  - intros i Hi. destruct (Gk i i) as (y & Hy & Ey); [now apply seq_nth_error|]. now rewrite (AT _ _ _ Hy).
Qed.

(** dz at a gate selects the adaptive window (it is not NaN) *)
Definition classified (dz : F) : bool :=
  ((fle (flit 45) dz) || (fle (flit 35) dz && flt dz (flit 45)) || flt dz (flit 35))%bool.

Lemma new_nadp_classified half (dz : F) m m' : classified dz = true -> new_nadp half dz m = new_nadp half dz m'.
Proof.
  unfold classified, new_nadp. destruct (fle (flit 45) dz), (fle (flit 35) dz), (flt dz (flit 45)), (flt dz (flit 35)); simpl; auto; discriminate.
Qed.
Lemma new_nadp_range half (dz : F) m :
  (m = Z.of_nat half \/ m = 2 * Z.of_nat half \/ m = 3 * Z.of_nat half)%Z \/ classified dz = true ->
  (new_nadp half dz m = Z.of_nat half \/ new_nadp half dz m = 2 * Z.of_nat half \/ new_nadp half dz m = 3 * Z.of_nat half)%Z.
Proof.
  unfold classified, new_nadp.
  destruct (fle (flit 45) dz), (fle (flit 35) dz), (flt dz (flit 45)), (flt dz (flit 35)); cbn [andb orb]; auto;
    intros [?|?]; auto; discriminate.
Qed.

(** the gates of the KDP window, as the loop sees them *)
Definition kd_js (bd : build) (n : nat) (nadp : Z) (i : nat) : list Z :=
  let index1 := (Z.of_nat i - half_of bd nadp)%Z in
  let index2 := (Z.of_nat i + half_of bd nadp)%Z in
  if ((0 <=? index1) && (index2 <=? Z.of_nat n - 1))%Z%bool
  then zrange index1 (match bd with Cython => index2 | Fortran => index2 + 1 end)%Z else [].
Definition kd_valid (bd : build) (bad : F) (dl : list F) (nadp : Z) (i : nat) : list Z :=
  filter (fun j => negb (feq (at_ dl (Z.to_nat j)) bad)) (kd_js bd (length dl) nadp i).

Lemma kd_gate_eq bd bad rng (dl : list F) nadp i :
  kd_gate bd bad rng dl nadp i =
  let js := kd_valid bd bad dl nadp i in
  if (500 <? length js)%nat then Fault else
  if (4 * nadp <? 5 * Z.of_nat (length js))%Z then
    ab <- LSE bd bad (map (fun j => (at_ rng (Z.to_nat j), at_ dl (Z.to_nat j))) js) ;; Ok (f32 (fmul (flit 0.5) (fst ab)))
  else Ok bad.
Proof. unfold kd_gate, kd_valid, kd_js. cbv zeta. rewrite map_length. reflexivity. Qed.

Lemma filter_len {A} (f : A -> bool) l : (length (filter f l) <= length l)%nat.
Proof. induction l; simpl; auto. destruct (f a); simpl; lia. Qed.
Lemma filter_all {A} (f : A -> bool) l : (forall x, In x l -> f x = true) -> filter f l = l.
Proof. induction l as [|x l IH]; simpl; intro G; auto. rewrite (G x) by auto. f_equal. auto. Qed.

Lemma kd_js_len bd n nadp i :
  (length (kd_js bd n nadp i) <= Z.to_nat (2 * half_of bd nadp + match bd with Cython => 0 | Fortran => 1 end))%nat.
Proof.
  unfold kd_js. cbv zeta. destruct ((0 <=? _) && _)%Z%bool; [|cbn [length]; lia]. rewrite zrange_length. destruct bd; lia.
Qed.


(** largest half window for which the two work arrays suffice *)
Definition half_max (bd : build) : nat := match bd with Cython => 167 | Fortran => 166 end.

Lemma half_max_ok bd half nadp : (half <= half_max bd)%nat ->
  (nadp = Z.of_nat half \/ nadp = 2 * Z.of_nat half \/ nadp = 3 * Z.of_nat half)%Z ->
  (2 * half_of bd nadp + match bd with Cython => 0 | Fortran => 1 end <= 500)%Z.
Proof.
  intros Hh Hn. destruct bd; cbn [half_of half_max] in *.
  - assert (nadp / 2 < 251)%Z; [|lia]. apply Z.div_lt_upper_bound; lia.
  - assert (nadp ÷ 2 <= 249)%Z; [|lia]. assert (0 <= nadp <= 498)%Z by lia.
    rewrite Z.quot_div_nonneg by lia. assert (nadp / 2 < 250)%Z; [|lia]. apply Z.div_lt_upper_bound; lia.
Qed.

(** returns, or (Cython only) raises ZeroDivisionError *)
Definition nofault (bd : build) {A} (r : res A) : Prop := (exists a, r = Ok a) \/ bd = Cython /\ r = Raise ZeroDivisionError.
Lemma nofault_bind bd {A B} (x : res A) (k : A -> res B) : nofault bd x -> (forall a, x = Ok a -> nofault bd (k a)) -> nofault bd (bind x k).
Proof. intros [(a & ->)|(E & ->)] G; simpl; auto. right; auto. Qed.
Lemma nofault_ok bd {A} (a : A) : nofault bd (Ok a). Proof. left; eauto. Qed.
Lemma nofault_forM bd {A S} (l : list A) (f : A -> S -> res S) s : (forall x s, In x l -> nofault bd (f x s)) -> nofault bd (forM l f s).
Proof.
  revert s; induction l as [|x l IH]; intros s G; simpl; [apply nofault_ok|].
  apply nofault_bind; auto. 
  - apply G; left; auto.
  - intros a _. apply IH. intros y t Hy. apply G. now right.
Qed.
Lemma nofault_mapM bd {A B} (l : list A) (f : A -> res B) : (forall x, In x l -> nofault bd (f x)) -> nofault bd (mapM f l).
Proof.
  induction l as [|x l IH]; intros G; simpl; [apply nofault_ok|].
  apply nofault_bind; [apply G; left; auto|]. intros a _. apply nofault_bind.
  - apply IH. intros y Hy. apply G. now right.
  - intros; apply nofault_ok.
Qed.

Lemma sd_gate_nofault bd h bad (dp : list F) i  : nofault bd (sd_gate bd h bad dp i).
Proof.
  unfold sd_gate. cbv zeta. destruct (_ && _)%bool; [|apply nofault_ok].
  destruct (_ <? _)%Z; [|apply nofault_ok]. destruct bd; [|apply nofault_ok].
  destruct (d_n _); [right; auto|apply nofault_ok].
Qed.
Lemma LSE_nofault bd bad (pts : list (F * F)) : nofault bd (LSE bd bad pts).
Proof. unfold LSE. cbv zeta. destruct bd; [|left; eauto]. destruct (feq _ _); [right; auto|left; eauto]. Qed.
Lemma fir_gate_nofault p rng thsd sd i (st : list F * list F) : (2 * (p_order p / 2) + 1 <= 500)%nat ->
  nofault (p_build p) (fir_gate p rng thsd sd i st).
Proof.
  intro Hh. destruct st as (z, y). unfold fir_gate. cbv zeta. destruct (good _ _ _ _ i); [|apply nofault_ok].
  match goal with |- context [length (map ?f (filter ?g ?l))] => 
    assert (Le : (length (map f (filter g l)) <= 500)%nat) end.
  { rewrite map_length. etransitivity; [apply filter_len|]. now rewrite seq_length. }
  destruct (Nat.ltb_spec 500 (length (map (fun j => (at_ rng j, at_ z j)) (filter (good (p_bad p) sd thsd z) (seq (i - p_order p / 2) (2 * (p_order p / 2) + 1)))))); [lia|].
  destruct (4 * p_order p <? _)%nat; [|apply nofault_ok].
  apply nofault_bind; [|intros; apply nofault_ok].
  destruct (_ <? p_order p + 1)%nat; [|apply nofault_ok].
  apply nofault_bind; [apply LSE_nofault|intros; apply nofault_ok].
Qed.

Lemma half_max_500 bd half : (half <= half_max bd)%nat -> (2 * half + 1 <= 500)%nat.
Proof. destruct bd; simpl; lia. Qed.

Lemma nadp_at_range half bad (dz : list F) nadp0 n : (forall i, (i < n)%nat -> feq (at_ dz i) bad = true \/ classified (at_ dz i) = true) ->
  forall i, (i <= n)%nat -> 
  (nadp_at half bad dz nadp0 i = nadp0 /\ forall j, (j < i)%nat -> feq (at_ dz j) bad = true) \/
  (nadp_at half bad dz nadp0 i = Z.of_nat half \/ nadp_at half bad dz nadp0 i = 2 * Z.of_nat half \/ nadp_at half bad dz nadp0 i = 3 * Z.of_nat half)%Z.
Proof.
  intros C i. induction i as [|i IH]; intro Hi; [left; split; [auto|lia]|]. cbn [nadp_at]. cbv zeta.
  destruct (feq (at_ dz i) bad) eqn:Eb.
  - destruct IH as [(E & A)|E]; [lia| |right; auto]. left. split; auto. intros j Hj.
    destruct (Nat.eq_dec j i) as [->|]; auto. apply A. lia.
  - right. apply new_nadp_range. destruct (C i) as [?|?]; [lia|congruence|auto].
Qed.

Lemma kd_val_nofault bd half bad (rng dl dz : list F) nadp0 i : (half <= half_max bd)%nat ->
  (feq (at_ dz i) bad = true \/ classified (at_ dz i) = true) -> nofault bd (kd_val bd half bad rng dl dz nadp0 i).
Proof.
  intros Hh C. unfold kd_val. destruct (feq (at_ dz i) bad) eqn:Eb; [apply nofault_ok|].
  destruct C as [?|C]; [congruence|]. rewrite kd_gate_eq. cbv zeta.
  set (m := new_nadp half (at_ dz i) _).
  assert (Hm : (m = Z.of_nat half \/ m = 2 * Z.of_nat half \/ m = 3 * Z.of_nat half)%Z) by (apply new_nadp_range; auto).
  assert (L : (length (kd_valid bd bad dl m i) <= 500)%nat).
  { unfold kd_valid. etransitivity; [apply filter_len|]. etransitivity; [apply kd_js_len|].
    pose proof (half_max_ok bd half m Hh Hm). destruct bd; lia. }
  destruct (Nat.ltb_spec 500 (length (kd_valid bd bad dl m i))); [lia|].
  destruct (_ <? _)%Z; [|apply nofault_ok]. apply nofault_bind; [apply LSE_nofault|intros; apply nofault_ok].
Qed.

Lemma ray_nofault p nadp0 (dp dz rng thsd : list F) nf sg :
  (p_order p / 2 <= half_max (p_build p))%nat ->
  (length dp <= length dz)%nat -> (length dp <= length rng)%nat -> (length dp <= length thsd)%nat ->
  (forall i, (i < length dp)%nat -> feq (at_ dz i) (p_bad p) = true \/ classified (at_ dz i) = true) ->
  nofault (p_build p) (calc_kdp_ray_fir p nadp0 dp dz rng thsd nf sg).
Proof.
  intros Hh H1 H2 H3 C. unfold calc_kdp_ray_fir. cbv zeta.
  destruct (Nat.ltb_spec (length dz) (length dp)); [lia|].
  destruct (Nat.ltb_spec (length rng) (length dp)); [lia|].
  destruct (Nat.ltb_spec (length thsd) (length dp)); [lia|]. cbn [orb].
  apply nofault_bind; [apply nofault_mapM; intros; apply sd_gate_nofault|]. intros sd _.
  apply nofault_bind.
  { apply nofault_forM. intros _ s _. unfold fir_pass. apply nofault_bind; [|intros; apply nofault_ok].
    apply nofault_forM. intros. apply fir_gate_nofault. eapply half_max_500; eauto. }
  intros st _. rewrite kd_loop. apply nofault_bind; [|intros; apply nofault_ok].
  apply nofault_bind; [|intros; apply nofault_ok]. apply nofault_mapM.
  intros i Hi. apply in_seq in Hi. apply kd_val_nofault; auto. apply C. lia.
Qed.
End LawFree.
