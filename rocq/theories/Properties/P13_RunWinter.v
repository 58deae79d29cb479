(** * C42, C43, C65: run_winter *)
From Coq Require Import Reals Lra Lia Qreals Arith String.
From Verif Require Import Base.Num Base.ListFacts Base.XReal Base.XTac Base.Pointwise Base.XArith Base.QOps.
From Verif Require Import Model.Tables Model.Beta Model.TTraps Model.Hid Model.Melt.
From Verif Require Import Spec.HidSpec Spec.MeltSpec.
From Verif Require Import Proofs.HidProofs Proofs.SummerProofs Proofs.SummerReal Proofs.CoreProofs Proofs.MeltProofs.
From Verif Require Import Properties.P08_Summer Properties.P11_Winter Properties.P12_Melt.

(** all arrays of dz's shape *)
Definition opt_len {A} (n : nat) (o : option (list A)) : Prop := match o with Some l => length l = n | None => True end.
Definition scan_ok {F} (s : scan F) : Prop :=
  let n := length (s_dz s) in
  prod (s_shape s) = n /\ length (s_rho s) = n /\ length (s_rhomask s) = n /\
  opt_len n (s_zdr s) /\ opt_len n (s_kdp s) /\ opt_len n (s_sn s) /\ opt_len n (s_T s) /\ opt_len n (s_heights s).

Section LawFree.
Context {F : Type} {fo : FloatOps F}.

(** rho masked, NaN or at most minRH *)
Definition rho_bad (s : scan F) (minRH : F) (i : nat) : bool :=
  match nth_error (s_rho s) i, nth_error (s_rhomask s) i with
  | Some x, Some m => (m || fisnan x || fle x minRH)%bool
  | _, _ => false
  end.
(** signal-to-noise ratio below the threshold *)
Definition sn_bad (s : scan F) (thr : F) (i : nat) : bool :=
  match s_sn s with
  | Some sn => match nth_error sn i with Some x => flt x thr | None => false end
  | None => false
  end.

Lemma loud_ok {A} vb n (r : res A) x : loud vb n r = Ok x -> r = Ok x.
Proof. unfold loud. destruct r; cbn [bind]; try discriminate. destruct (vb && _)%bool; congruence. Qed.
Lemma loud_gates {A} vb n (r : res A) : vb = false \/ n <> 0%nat -> loud vb n r = r.
Proof.
  intro H. unfold loud. assert ((vb && (n =? 0)%nat)%bool = false) as ->; [|destruct r; reflexivity].
  destruct H as [-> |H]; auto. apply Nat.eqb_neq in H. rewrite H. apply andb_false_r.
Qed.

Lemma argmax_class_ok n sz sh (mu : list F) : (n <> 0)%nat ->
  exists h, argmax_class n sz (Scores sh mu) = Ok (map (fun k => Z.of_nat (S k)) h) /\ length h = sz /\
    forall i, (i < sz)%nat -> exists k, nth_error h i = Some k /\ (k < n)%nat /\ np_argmax (column n sz mu i) = Ok k.
Proof.
  intro Hn. destruct (argmax0_ok n sz mu Hn) as (h & E & L & G). exists h. unfold argmax_class.
  rewrite E. auto.
Qed.

(** the class map of the melting-layer step *)
Definition ml_code (rb sb : bool) (k : nat) : Z :=
  (if rb then -1 else if sb then 0 else 1 + Z.of_nat k)%Z.

Definition ml_map (s : scan F) (minRH thr : F) (mu : list F) (fh : list Z) : Prop :=
  length fh = length (s_dz s) /\
  forall i, (i < length (s_dz s))%nat -> exists k, (k < 2)%nat /\
    np_argmax (column 2 (length (s_dz s)) mu i) = Ok k /\
    nth_error fh i = Some (ml_code (rho_bad s minRH i) (sn_bad s thr i) k).

Lemma ml_fh (s : scan F) minRH thr sh mu : scan_ok s ->
  exists fh, (fh <- argmax_class 2 (length (s_dz s)) (Scores sh mu) ;;
    let fh := match s_sn s with
      | Some sn => msetc (map (fun x => flt x thr) sn) 0%Z fh | None => fh end in
    let fh := msetc (map2 (fun x (m : bool) => if m then true else fisnan x) (s_rho s) (s_rhomask s)) (-1)%Z fh in
    Ok (msetc (map (fun x => fle x minRH) (s_rho s)) (-1)%Z fh)) = Ok fh /\ ml_map s minRH thr mu fh.
Proof.
  intros (Hp & Hr & Hm & _ & _ & Hsn & _ & _).
  destruct (argmax_class_ok 2 (length (s_dz s)) sh mu) as (h & -> & L & G); [discriminate|].
  cbn [bind]. cbv zeta. eexists. split; [reflexivity|].
  set (fh0 := match s_sn s with Some sn => _ | None => _ end).
  assert (L0 : length fh0 = length (s_dz s)).
  { unfold fh0. unfold opt_len in Hsn. destruct (s_sn s); pwlen. }
  split; [pwlen|].
  intros i Hi. destruct (G i Hi) as (k & Hk & Hlt & Ea). exists k. split; auto. split; auto.
  destruct (nth_error_map_some (s_rho s) (i := i)) as (r & Hri); [lia|].
  destruct (nth_error_map_some (s_rhomask s) (i := i)) as (m & Hmi); [lia|].
  assert (H0 : nth_error fh0 i = Some (if sn_bad s thr i then 0 else Z.of_nat (S k))%Z).
  { unfold fh0, sn_bad. unfold opt_len in Hsn. destruct (s_sn s) as [sn|].
    - destruct (nth_error_map_some sn (i := i)) as (x & Hx); [lia|]. rewrite Hx. rewrite msetc_nth_error, !map_nth_error', Hx, Hk. reflexivity.
    - rewrite map_nth_error', Hk. reflexivity. }
  pwr. unfold ml_code, rho_bad. rewrite Hri, Hmi.
  destruct (sn_bad s thr i), m, (fle r minRH), (fisnan r); cbn [orb]; auto; lia.
Qed.

(** lengths of the level maps *)
Lemma rhi_len ms vb fh (hs : list F) e m z : length hs = length fh -> get_ml_rhi ms vb fh hs e = Ok (m, z) -> length m = length fh.
Proof.
  intros L E. unfold get_ml_rhi in E. apply bind_ok in E as (med & _ & E). injection E as <- _. pwlen.
Qed.
Lemma ppi_len ms fh (dz hs : list F) ng e n az m z : length hs = length fh ->
  get_ml_ppi ms fh dz hs ng e n az = Ok (m, z) -> length m = length fh.
Proof.
  intros L E. unfold get_ml_ppi in E. destruct az as [az|].
  - destruct (n =? 0)%nat; [discriminate|]. destruct (Nat.eqb_spec (length (az3d az ng)) (length fh)) as [La|]; [|discriminate].
    cbn [negb] in E. apply bind_ok in E as ((meds, melt) & El & E).
    assert (Lm : length melt = length fh).
    { apply (forM_inv (fun st => length (snd st) = length fh)) in El; auto.
      - simpl. now rewrite map_length.
      - intros (a, b) (m1, mz1) (m2, mz2) _ H1 E1. cbn [snd fst] in *. unfold ppi_sector in E1.
        destruct (_ =? 0)%nat; [discriminate|]. apply bind_ok in E1 as (med & _ & E1).
        assert (mz2 = msetc (land (map (fun z => fle a z) (az3d az ng)) (map (fun z => flt z b) (az3d az ng))) med mz1) as -> by congruence.
        pwlen. }
    injection E as <- _. pwlen.
  - apply bind_ok in E as ((m', z') & Er & E). injection E as <- _. eapply rhi_len; eauto.
Qed.

(** how the level map arises from the class map *)
Definition level_map_of (ms vb : bool) (s : scan F) (scan_type : string) (e : option F) (nsect : nat) (fh lev : list Z) : Prop :=
  exists h, s_heights s = Some h /\
  (if (String.eqb scan_type "rhi" || String.eqb scan_type "grid")%bool
   then exists z, get_ml_rhi ms vb fh h e = Ok (lev, z)
   else exists z ng, (s_azimuths s <> None -> s_shape s = [hd 0 (s_shape s); ng]) /\
                     get_ml_ppi ms fh (s_dz s) h ng e nsect (s_azimuths s) = Ok (lev, z))%nat.

Lemma melting_layer_ok ms vb (s : scan F) st bd minRH e n thr lev z fh sc : scan_ok s ->
  melting_layer ms vb s st bd minRH e n thr = Ok (lev, z, fh, sc) ->
  exists sh mu, csu_fhc_cold_newml1 false ml1_weights "linear" (ml_fields s) 2 (flit 1) BS = Ok (Scores sh mu) /\
    sc = Scores sh mu /\ ml_map s minRH thr mu fh /\ level_map_of ms vb s st e n fh lev /\ length lev = length (s_dz s).
Proof.
  intros Hok E. unfold melting_layer in E. apply bind_ok in E as (sc' & Es & E). apply loud_ok in Es.
  destruct sc' as [sh mu|]; [|discriminate].
  destruct (ml_fh s minRH thr sh mu Hok) as (fh' & Ef & Mf).
  apply bind_ok in E as (fh0 & Ea & E). rewrite Ea in Ef. cbn [bind] in Ef. cbv zeta in Ef, E.
  apply (f_equal (fun r => match r with Ok z => z | _ => fh' end)) in Ef. rewrite Ef in E. clear Ef.
  destruct (s_heights s) as [h|] eqn:Eh; [|discriminate].
  assert (Lh : length h = length fh').
  { destruct Hok as (_ & _ & _ & _ & _ & _ & _ & Hh). rewrite Eh in Hh. simpl in Hh. destruct Mf. lia. }
  exists sh, mu. split; auto. unfold level_map_of.
  destruct (String.eqb st "rhi" || String.eqb st "grid")%bool eqn:Er.
  - apply bind_ok in E as ((m, z') & E1 & E). cbn [fst snd] in E. injection E as <- _ <- <-.
    split; auto. split; auto. split; [exists h; eauto|].
    rewrite (rhi_len _ _ _ _ _ _ _ Lh E1). apply Mf.
  - apply bind_ok in E as (ng & En & E). apply bind_ok in E as ((m, z') & E1 & E).
    cbn [fst snd] in E. injection E as <- _ <- <-. split; auto. split; auto. split.
    + exists h. split; auto. exists z', ng. split; auto. intro Ha.
      destruct (s_azimuths s); [|contradiction]. destruct (s_shape s) as [|a [|b [|]]]; try discriminate.
      injection En as ->. reflexivity.
    + rewrite (ppi_len _ _ _ _ _ _ _ _ _ _ Lh E1). apply Mf.
Qed.

(** ** C42 *)
Theorem C42_codes ms vb (s : scan F) ut bd method st minRH e n thr hca sc maps : scan_ok s ->
  run_winter ms vb s ut bd method st minRH e n thr = Ok (hca, sc, maps) ->
  exists shm mum shw muw shc muc fh lev,
    sc = (Scores shm mum, Scores shw muw, Scores shc muc) /\
    ml_map s minRH thr mum fh /\ level_map_of ms vb s st e n fh lev /\
    length hca = length (s_dz s) /\
    forall i, (i < length (s_dz s))%nat -> exists k w c l,
      np_argmax (column 2 (length (s_dz s)) mum i) = Ok k /\
      np_argmax (column 2 (length (s_dz s)) muw i) = Ok w /\ (w < 2)%nat /\
      np_argmax (column 4 (length (s_dz s)) muc i) = Ok c /\ (c < 4)%nat /\
      nth_error lev i = Some l /\
      nth_error hca i = Some (winter_code (rho_bad s minRH i || sn_bad s thr i) (k =? 1)%nat
                                (String.eqb st "grid") l w c).
Proof.
  intros Hok E. unfold run_winter in E. apply bind_ok in E as ((((lev, z), fh), scm) & Em & E).
  assert (Em' : melting_layer ms vb s st bd minRH e n thr = Ok (lev, z, fh, scm)).
  { destruct (melting_layer ms vb s st bd minRH e n thr); try discriminate; auto. }
  clear Em. apply melting_layer_ok in Em' as (shm & mum & Es & -> & Mf & Ml & Ll); auto.
  apply bind_ok in E as (scw & Ew & E). apply loud_ok in Ew. destruct scw as [shw muw|]; [|discriminate].
  destruct (argmax_class_ok 2 (length (s_dz s)) shw muw) as (hw & Ehw & Lw & Gw); [discriminate|].
  rewrite Ehw in E. cbn [bind] in E.
  apply bind_ok in E as (scc & Ec & E). apply loud_ok in Ec. destruct scc as [shc muc|]; [|discriminate].
  destruct (argmax_class_ok 4 (length (s_dz s)) shc muc) as (hc & Ehc & Lc & Gc); [discriminate|].
  rewrite Ehc in E. cbn [bind] in E. cbv zeta in E.
  assert (Eh := f_equal (fun r => match r with Ok (x, _, _) => x | _ => hca end) E). cbv beta iota in Eh.
  assert (Esc := f_equal (fun r => match r with Ok (_, x, _) => x | _ => sc end) E). cbv beta iota in Esc.
  clear E. exists shm, mum, shw, muw, shc, muc, fh, lev. split; auto. split; auto. split; auto.
  destruct Mf as (Lf & Gf). rewrite <- Eh. split.
  - destruct (String.eqb st "grid"); pwlen.
  - intros i Hi. destruct (Gf i Hi) as (k & Hk & Ak & Fk). destruct (Gw i Hi) as (w & Hw & Wl & Aw).
    destruct (Gc i Hi) as (c & Hc & Cl & Ac). destruct (nth_error_map_some lev (i := i)) as (l & Hl); [lia|].
    exists k, w, c, l. do 6 (split; auto).
    destruct (String.eqb st "grid").
    + pwr. unfold winter_code, ml_code.
      destruct (rho_bad s minRH i), (sn_bad s thr i); cbn [orb]; try reflexivity.
      destruct k as [|[|k]]; [|reflexivity|lia].
      destruct w as [|[|w]]; [| |lia]; destruct c as [|[|[|[|c]]]]; try lia;
        destruct (Z.eqb_spec l 0); try subst l; try reflexivity;
        destruct (Z.eqb_spec l 2); try subst l; try reflexivity;
        destruct (Z.eqb_spec l 1); try subst l; reflexivity.
    + pwr. unfold winter_code, ml_code. rewrite andb_false_r.
      destruct (rho_bad s minRH i), (sn_bad s thr i); cbn [orb]; try reflexivity.
      destruct k as [|[|k]]; [|reflexivity|lia].
      destruct w as [|[|w]]; [| |lia]; destruct c as [|[|[|[|c]]]]; try lia;
        destruct (Z.eqb_spec l 0); try subst l; try reflexivity;
        destruct (Z.eqb_spec l 2); try subst l; reflexivity.
Qed.

(** The documented codes, without 0 *)
Corollary C42_range ms vb (s : scan F) ut bd method st minRH e n thr hca sc maps : scan_ok s ->
  run_winter ms vb s ut bd method st minRH e n thr = Ok (hca, sc, maps) ->
  Forall (fun c => c = -1 \/ 1 <= c <= 7)%Z hca.
Proof.
  intros Hok E. destruct (C42_codes _ _ _ _ _ _ _ _ _ _ _ _ _ _ Hok E) as (?&?&?&?&?&?&?&?& _ & _ & _ & L & G).
  apply Forall_forall. intros c Hc. apply In_nth_error in Hc as (i & Hi).
  pose proof (nth_error_lt _ _ Hi) as Hl. rewrite L in Hl.
  destruct (G i Hl) as (k & w & cc & l & _ & _ & Hw & _ & Hcc & _ & Hh). rewrite Hh in Hi. injection Hi as <-.
  unfold winter_code. repeat match goal with |- context [if ?b then _ else _] => destruct b end; lia.
Qed.

(** ** C43 *)
Theorem C43_ignored ms vb (s : scan F) ut ut' bd bd' method method' st minRH e n thr :
  run_winter ms vb s ut bd method st minRH e n thr = run_winter ms vb s ut' bd' method' st minRH e n thr.
Proof. reflexivity. Qed.

(** the scores returned are those of the single steps, with their fixed bands
    and method *)
Theorem C43_scores ms vb (s : scan F) ut bd method st minRH e n thr hca m w c maps : scan_ok s ->
  run_winter ms vb s ut bd method st minRH e n thr = Ok (hca, (m, w, c), maps) ->
  csu_fhc_cold_newml1 false ml1_weights "linear" (ml_fields s) 2 (flit 1) BS = Ok m /\
  csu_fhc_winter true winter_weights "linear" (winter_fields s) (flit 1) true BC = Ok w /\
  csu_fhc_winter true winter_weights "linear" (winter_fields s) (flit 1) false BC = Ok c.
Proof.
  intros Hok E. unfold run_winter in E. apply bind_ok in E as ((((lev, z), fh), scm) & Em & E).
  assert (Em' : melting_layer ms vb s st bd minRH e n thr = Ok (lev, z, fh, scm)).
  { destruct (melting_layer ms vb s st bd minRH e n thr); try discriminate; auto. }
  apply melting_layer_ok in Em' as (shm & mum & Es & -> & _); auto.
  apply bind_ok in E as (scw & Ew & E). apply loud_ok in Ew. apply bind_ok in E as (fw & _ & E).
  apply bind_ok in E as (scc & Ec & E). apply loud_ok in Ec. apply bind_ok in E as (fc & _ & E). cbv zeta in E.
  assert (Esc := f_equal (fun r => match r with Ok (_, x, _) => x | _ => (m, w, c) end) E). cbv beta iota in Esc.
  assert (m = Scores shm mum /\ w = scw /\ c = scc) as (-> & -> & ->) by (repeat split; congruence).
  auto.
Qed.
End LawFree.

Open Scope R_scope.

(** ** Totality *)
Lemma ml_scores_ok (s : scan xr) : scan_ok s -> scores_ok (ml_fields s) false "linear" false.
Proof.
  intros (Hp & Hr & Hm & Hz & Hk & _). split; [reflexivity|]. split; [exact (eq_sym Hp)|]. split.
  - intros k Hs. change (size (ml_fields s KDZ)) with (length (s_dz s)).
    destruct k; unfold ml_fields, oarr in *; simpl in Hs; try discriminate; try (simpl; lia).
    + destruct (s_zdr s); [exact Hz|discriminate].
    + destruct (s_kdp s); [exact Hk|discriminate].
  - right. split; [reflexivity|]. split; [|discriminate].
    apply existsb_exists. exists KRH. split; [simpl; auto|reflexivity].
Qed.
Lemma winter_scores_ok (s : scan xr) : scan_ok s -> (s_zdr s <> None \/ s_kdp s <> None) ->
  scores_ok (winter_fields s) true "linear" false.
Proof.
  intros (Hp & _ & _ & Hz & Hk & _ & HT & _) Hpol. split; [reflexivity|]. split; [exact (eq_sym Hp)|]. split.
  - intros k Hs. change (size (winter_fields s KDZ)) with (length (s_dz s)).
    destruct k; unfold winter_fields, oarr in *; simpl in Hs; try discriminate; try (simpl; lia).
    + destruct (s_zdr s); [exact Hz|discriminate].
    + destruct (s_kdp s); [exact Hk|discriminate].
    + destruct (s_T s); [exact HT|discriminate].
  - right. split; [reflexivity|]. split; [|auto].
    apply existsb_exists. destruct Hpol as [H|H].
    + exists KDR. split; [simpl; auto|]. unfold winter_fields, oarr. destruct (s_zdr s); [reflexivity|contradiction].
    + exists KKD. split; [simpl; auto|]. unfold winter_fields, oarr. destruct (s_kdp s); [reflexivity|contradiction].
Qed.

Lemma combine_fst {A B} (a : list A) (b : list B) : length b = length a -> map fst (combine a b) = a.
Proof. revert b; induction a; intros [|y b] H; simpl in *; try discriminate; auto. f_equal. auto. Qed.
Lemma combine_snd {A B} (a : list A) (b : list B) : length b = length a -> map snd (combine a b) = b.
Proof. revert b; induction a; intros [|y b] H; simpl in *; try discriminate; auto. f_equal. auto. Qed.

Definition rhi_like (s : scan xr) (st : string) : Prop := st = "rhi"%string \/ st = "grid"%string \/ s_azimuths s = None.

Lemma melting_layer_total ms vb (s : scan xr) st bd minRH e n thr : scan_ok s -> s_heights s <> None -> rhi_like s st ->
  (vb = false \/ s_dz s <> []) -> (quiet ms vb \/ (st <> "rhi" /\ st <> "grid")%string) -> 
  exists r, melting_layer ms vb s st bd minRH (Some (Fin e)) n thr = Ok r.
Proof.
  intros Hok Hh Ht Hv Hq. unfold melting_layer.
  rewrite loud_gates by (destruct Hv as [|Hv]; [auto|right; intro N; apply length_zero_iff_nil in N; auto]).
  destruct (C64_total false ml1_weights "linear" (ml_fields s) 1 BS (ml_scores_ok s Hok)) as (mu & Es & _); [lra|].
  rewrite lit_int, Es. cbn [bind].
  destruct (ml_fh s minRH thr (2%nat :: shape (ml_fields s KDZ)) mu Hok) as (fh & Ef & Mf).
  destruct (argmax_class 2 (length (s_dz s)) (Scores (2%nat :: shape (ml_fields s KDZ)) mu)) as [f0| | | |]; try discriminate.
  cbn [bind] in *. cbv zeta in *.
  apply (f_equal (fun r => match r with Ok z => z | _ => fh end)) in Ef. rewrite Ef.
  destruct Hok as (_ & _ & _ & _ & _ & _ & _ & Hl). destruct (s_heights s) as [h|]; [|contradiction].
  simpl in Hl. assert (L : length h = length fh) by (destruct Mf; lia).
  destruct (String.eqb st "rhi" || String.eqb st "grid")%bool eqn:Eb.
  - destruct (C44_expected ms vb (combine fh h) e) as (m & Em & _).
    { destruct Hq as [Hq|(N1 & N2)]; auto. apply orb_true_iff in Eb as [Eb|Eb]; apply String.eqb_eq in Eb; contradiction. }
    rewrite combine_fst, combine_snd in Em by auto. rewrite Em. cbn [bind]. eauto.
  - destruct Ht as [-> |[-> | Ha]]; try discriminate. rewrite Ha. cbn [bind].
    destruct (C44_expected ms false (combine fh h) e) as (m & Em & _); [now left|].
    rewrite combine_fst, combine_snd in Em by auto.
    rewrite C45_no_azimuths, Em. cbn [bind]. eauto.
Qed.

(** RHI and gridded scans (and PPI without azimuths) with all documented inputs
    never fail, as long as the statistics can be printed (C96 for when not). *)
Theorem C42_total ms vb (s : scan xr) ut bd method st minRH e n thr : scan_ok s -> s_heights s <> None -> rhi_like s st ->
  (vb = false \/ s_dz s <> []) -> (quiet ms vb \/ (st <> "rhi" /\ st <> "grid")%string) -> 
  s_zdr s <> None \/ s_kdp s <> None ->
  exists r, run_winter ms vb s ut bd method st minRH (Some (Fin e)) n thr = Ok r.
Proof.
  intros Hok Hh Ht Hv Hq Hpol. unfold run_winter.
  destruct (melting_layer_total ms vb s st bd minRH e n thr Hok Hh Ht Hv Hq) as ((((lev, z), fh), sc) & ->). cbn [bind].
  rewrite !loud_gates by (destruct Hv as [|Hv]; [auto|right; intro N; apply length_zero_iff_nil in N; auto]).
  pose proof (winter_scores_ok s Hok Hpol) as Hs.
  destruct (C40_total true winter_weights "linear" (winter_fields s) 1 true BC Hs) as (muw & Ew & _); [lra|].
  destruct (C40_total true winter_weights "linear" (winter_fields s) 1 false BC Hs) as (muc & Ec & _); [lra|].
  rewrite lit_int, Ew. cbn [bind].
  destruct (argmax_class_ok 2 (length (s_dz s)) (2%nat :: shape (winter_fields s KDZ)) muw) as (hw & -> & _); [discriminate|].
  cbn [bind]. rewrite Ec. cbn [bind].
  destruct (argmax_class_ok 4 (length (s_dz s)) (4%nat :: shape (winter_fields s KDZ)) muc) as (hc & -> & _); [discriminate|].
  cbn [bind]. eauto.
Qed.

(** No heights: the message "Returning" is printed and the call fails. *)
Theorem C42_no_heights ms vb (s : scan xr) ut bd method st minRH e n thr : scan_ok s -> s_heights s = None -> (vb = false \/ s_dz s <> []) ->
  run_winter ms vb s ut bd method st minRH e n thr = Raise TypeError.
Proof.
  intros Hok Hh Hv. unfold run_winter, melting_layer.
  rewrite loud_gates by (destruct Hv as [|Hv]; [auto|right; intro N; apply length_zero_iff_nil in N; auto]).
  destruct (C64_total false ml1_weights "linear" (ml_fields s) 1 BS (ml_scores_ok s Hok)) as (mu & Es & _); [lra|].
  rewrite lit_int, Es. cbn [bind].
  destruct (argmax_class_ok 2 (length (s_dz s)) (2%nat :: shape (ml_fields s KDZ)) mu) as (h & -> & _); [discriminate|].
  cbn [bind]. rewrite Hh. reflexivity.
Qed.

(** ** C65: without ZDR and KDP the warm step fails *)
Theorem C65_needs_zdr_or_kdp ms vb (s : scan xr) ut bd method st minRH e n thr : scan_ok s -> s_heights s <> None -> rhi_like s st ->
  (vb = false \/ s_dz s <> []) -> (quiet ms vb \/ (st <> "rhi" /\ st <> "grid")%string) -> 
  s_zdr s = None -> s_kdp s = None ->
  run_winter ms vb s ut bd method st minRH (Some (Fin e)) n thr = Raise UnboundLocalError.
Proof.
  intros Hok Hh Ht Hv Hq Hz Hk. unfold run_winter.
  destruct (melting_layer_total ms vb s st bd minRH e n thr Hok Hh Ht Hv Hq) as ((((lev, z), fh), sc) & ->). cbn [bind].
  rewrite !loud_gates by (destruct Hv as [|Hv]; [auto|right; intro N; apply length_zero_iff_nil in N; auto]).
  unfold csu_fhc_winter. change (fhc_vars (winter_fields s) KDZ) with true. cbn [negb].
  assert (P : get_pol_flag (fhc_vars (winter_fields s)) = false)
    by (unfold get_pol_flag, fhc_vars, winter_fields; rewrite Hz, Hk; reflexivity).
  rewrite P. change (varlist "linear") with (Some all_keys). cbv zeta.
  change (contains "hybrid" "linear") with false. cbv iota. rewrite get_test_list_unbound. reflexivity.
Qed.

(** ** The choice between classes is by maximal score, at every gate with
    number scores *)
Theorem C42_first_maximum (s : scan xr) (mu : list xr) n i k : length mu = (n * length (s_dz s))%nat ->
  (i < length (s_dz s))%nat -> np_argmax (column n (length (s_dz s)) mu i) = Ok k ->
  (forall c, (c < n)%nat -> nth_error mu (c * length (s_dz s) + i) <> Some NaN) ->
  exists m, nth_error mu (k * length (s_dz s) + i) = Some m /\
   (forall c x, (c < n)%nat -> nth_error mu (c * length (s_dz s) + i) = Some x -> xle x m = true) /\
   (forall c x, (c < k)%nat -> nth_error mu (c * length (s_dz s) + i) = Some x -> xlt x m = true).
Proof.
  set (N := length (s_dz s)). intros L Hi E NN.
  assert (Cn : forall c, (c < n)%nat -> nth_error mu (c * N + i) = Some (nth (c * N + i) mu fnan)).
  { intros c Hc. apply nth_error_nth'. rewrite L. nia. }
  assert (Col : forall c x, nth_error (column n N mu i) c = Some x -> (c < n)%nat /\ nth_error mu (c * N + i) = Some x).
  { intros c x Hx. pose proof (nth_error_lt _ _ Hx) as Hc. rewrite column_len in Hc. split; auto.
    rewrite column_nth in Hx by auto. rewrite Cn by auto. auto. }
  destruct (np_argmax_spec _ _ E) as (m & Hm & Am & Bm).
  { intros x Hx. apply In_nth_error in Hx as (c & Hc). apply Col in Hc as (Hc & Hx). intros ->. now apply (NN c). }
  destruct (Col _ _ Hm) as (Hk & Hm'). exists m. split; auto. split.
  - intros c x Hc Hx. apply Am. apply nth_error_In with (n := c). rewrite column_nth by auto.
    rewrite Cn in Hx by auto. exact Hx.
  - intros c x Hc Hx. apply (Bm c x Hc). rewrite column_nth by lia. rewrite Cn in Hx by lia. exact Hx.
Qed.

(** ** Non-vacuity: a run on five gates *)
Definition ex_scan : scan (option Q) :=
  mkscan [5]%nat (qs [20; 25; 30; 20; 20]%Q) (Some (qs [0.2; 1.5; 1; 0.2; 0.2]%Q)) (Some (qs [0; 0.1; 0; 0; 0]%Q))
   (qs [0.99; 0.99; 0.93; 0.3; 0.99]%Q) [false; false; false; false; true] (Some (qs [20; 20; 20; 20; 20]%Q))
   (Some (qs [5; 5; 0; 5; -8]%Q)) (Some (qs [1; 6; 4; 1; 5]%Q)) None.
Example C42_scan_ok : scan_ok ex_scan.
Proof. unfold scan_ok. repeat split; reflexivity. Qed.
Example C42_run : match run_winter true true ex_scan false BS "linear" "rhi" (Some 0.5%Q) (Some (Some 4%Q)) 36 (Some 5%Q) with
  Ok (hca, _, _) => hca | _ => [] end = [7; 4; 5; -1; -1]%Z.
Proof. vm_compute. reflexivity. Qed.
