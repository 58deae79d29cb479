(** * C96: verbose (True by default in run_winter) *)
From Coq Require Import Reals Lra Lia Qreals Arith String.
From Verif Require Import Base.Num Base.ListFacts Base.XReal Base.XTac Base.Pointwise Base.XArith Base.QOps.
From Verif Require Import Model.Tables Model.Beta Model.TTraps Model.Hid Model.Melt.
From Verif Require Import Spec.HidSpec Spec.MeltSpec.
From Verif Require Import Proofs.HidProofs Proofs.MeltProofs Properties.P12_Melt Properties.P13_RunWinter.

Section LawFree.
Context {F : Type} {fo : FloatOps F}.

(** A verbose call never returns anything but what the quiet call returns. *)
Lemma melting_quiet ms vb (s : scan F) st bd minRH e n thr r :
  melting_layer ms vb s st bd minRH e n thr = Ok r -> melting_layer ms false s st bd minRH e n thr = Ok r.
Proof.
  intro E. unfold melting_layer in *. apply bind_ok in E as (sc & Es & E). apply loud_ok in Es.
  rewrite loud_gates by auto. rewrite Es. cbn [bind].
  apply bind_ok in E as (fh & Ea & E). rewrite Ea. cbn [bind]. cbv zeta in *.
  destruct (s_heights s); auto. destruct (_ || _)%bool; auto.
  apply bind_ok in E as (p & Er & E). apply rhi_verbose in Er. rewrite Er. auto.
Qed.

Theorem C96_same_result ms vb (s : scan F) ut bd method st minRH e n thr r :
  run_winter ms vb s ut bd method st minRH e n thr = Ok r ->
  run_winter ms false s ut bd method st minRH e n thr = Ok r.
Proof.
  intro E. unfold run_winter in *. apply bind_ok in E as (m & Em & E).
  assert (Em' : melting_layer ms vb s st bd minRH e n thr = Ok m).
  { destruct (melting_layer ms vb s st bd minRH e n thr); try discriminate; auto. }
  apply melting_quiet in Em'. rewrite Em'. cbn [bind]. destruct m as (((lev, z), fh), sm).
  apply bind_ok in E as (w & Ew & E). apply loud_ok in Ew. rewrite loud_gates, Ew by auto. cbn [bind].
  apply bind_ok in E as (fw & Efw & E). rewrite Efw. cbn [bind].
  apply bind_ok in E as (c & Ec & E). apply loud_ok in Ec. rewrite loud_gates, Ec by auto. cbn [bind]. exact E.
Qed.

(** Where verbose does no harm: no output of the quiet call is lost. *)
Lemma run_from_melting ms vb (s : scan F) ut bd method st minRH e n thr r m :
  s_dz s <> [] ->
  run_winter ms false s ut bd method st minRH e n thr = Ok r ->
  melting_layer ms false s st bd minRH e n thr = Ok m ->
  melting_layer ms vb s st bd minRH e n thr = Ok m ->
  run_winter ms vb s ut bd method st minRH e n thr = Ok r.
Proof.
  intros Hd E Ef Et. assert (length (s_dz s) <> 0)%nat by (intro N; apply length_zero_iff_nil in N; auto).
  unfold run_winter in *. rewrite Ef in E. rewrite Et. cbn [bind] in *. destruct m as (((lev, z), fh), sm).
  rewrite !loud_gates in * by auto. exact E.
Qed.

Theorem C96_harmless ms vb (s : scan F) ut bd method st minRH e n thr r :
  s_dz s <> [] -> quiet ms vb \/ (st <> "rhi" /\ st <> "grid")%string ->
  run_winter ms false s ut bd method st minRH e n thr = Ok r ->
  run_winter ms vb s ut bd method st minRH e n thr = Ok r.
Proof.
  intros Hd Hq E.
  assert (Hl : (length (s_dz s) <> 0)%nat) by (intro N; apply length_zero_iff_nil in N; auto).
  assert (exists m, melting_layer ms false s st bd minRH e n thr = Ok m) as (m & Em).
  { unfold run_winter in E. destruct (melting_layer ms false s st bd minRH e n thr); try discriminate; eauto. }
  apply (run_from_melting _ _ _ _ _ _ _ _ _ _ _ _ m); auto.
  unfold melting_layer in *. rewrite !loud_gates in * by auto.
  apply bind_ok in Em as (sc & -> & Em). cbn [bind]. apply bind_ok in Em as (fh & -> & Em). cbn [bind].
  cbv zeta in *. destruct (s_heights s); auto.
  destruct (String.eqb st "rhi" || String.eqb st "grid")%bool eqn:Eb; auto.
  destruct Hq as [Hq|(N1 & N2)].
  - apply bind_ok in Em as (p & Er & Em). unfold get_ml_rhi in Er |- *. rewrite (quiet_and _ _ Hq).
    rewrite andb_false_l in Er. rewrite Er. exact Em.
  - apply orb_true_iff in Eb as [Eb|Eb]; apply String.eqb_eq in Eb; contradiction.
Qed.

(** An empty scan: ValueError. *)
Theorem C96_empty ms (s : scan F) ut bd method st minRH e n thr r :
  s_dz s = [] -> run_winter ms false s ut bd method st minRH e n thr = Ok r ->
  run_winter ms true s ut bd method st minRH e n thr = Raise ValueError.
Proof.
  intros Hd E. unfold run_winter in *.
  assert (melting_layer ms true s st bd minRH e n thr = Raise ValueError) as ->; [|reflexivity].
  assert (exists m, melting_layer ms false s st bd minRH e n thr = Ok m) as (m & Em).
  { destruct (melting_layer ms false s st bd minRH e n thr); try discriminate; eauto. }
  clear E. unfold melting_layer in *. rewrite Hd in *. cbn [length] in *.
  apply bind_ok in Em as (sc & Es & _). apply loud_ok in Es. rewrite Es. reflexivity.
Qed.
End LawFree.

(** ** SciPy 1.11 and later, RHI and gridded scans: the default call raises
    IndexError exactly when the melting level is found from the data.

    [ml_count e fh h]: gates that the quiet call reports as wet snow (code 5 in
    its class map of the melting-layer step), within 1.5 km of the expected level
    if there is one *)
Open Scope R_scope.
Definition counts (e : option R) (g : Z * xr) : bool :=
  ((fst g =? 5)%Z && match e with
    | None => true
    | Some e => match snd g with
                | Fin z => if Rle_dec (Rabs (z - e)) (3 / 2) then true else false
                | _ => false end
    end)%bool.
Definition ml_count (e : option R) (fh : list Z) (h : list xr) : nat :=
  length (filter (counts e) (combine fh h)).

Lemma rhi_raises ms fh (h : list xr) (e : option R) r : length h = length fh ->
  (forall c, In c fh -> c <> 5%Z) ->
  get_ml_rhi ms false fh h (option_map Fin e) = Ok r ->
  get_ml_rhi true true fh h (option_map Fin e) =
    if (10 <? ml_count e (msetc (map (fun c => (c =? 2)%Z) fh) 5%Z fh) h)%nat then Raise IndexError else Ok r.
Proof.
  intros L N5 E. set (gs := combine fh h).
  assert (F1 : fh = map fst gs) by (unfold gs; rewrite combine_fst; auto).
  assert (F2 : h = map snd gs) by (unfold gs; rewrite combine_snd; auto).
  assert (C : ml_count e (msetc (map (fun c => (c =? 2)%Z) fh) 5%Z fh) h =
    length (filter (fun g => (wet_snow (fst g) && match e with None => true | Some e =>
       match snd g with Fin z => if Rle_dec (Rabs (z - e)) (3 / 2) then true else false | _ => false end end)%bool) gs)).
  { unfold ml_count. rewrite F1 in N5. rewrite F1, F2. clear -N5. rewrite !map_map.
    induction gs as [|(c, z) gs IH]; [reflexivity|].
    cbn [map fst snd]. cbn [msetc combine].
    assert (IH' := IH (fun c Hc => N5 c (or_intror Hc))). clear IH.
    assert (K : counts e (if (c =? 2)%Z then 5%Z else c, z) = (wet_snow c && match e with None => true | Some e =>
       match z with Fin z => if Rle_dec (Rabs (z - e)) (3 / 2) then true else false | _ => false end end)%bool).
    { unfold counts, wet_snow. cbn [fst snd]. destruct (Z.eqb_spec c 2) as [->|]; [reflexivity|].
      assert (c <> 5%Z) by (apply N5; now left). apply Z.eqb_neq in H. now rewrite H. }
    unfold msetc in *. cbn [map map2 mset combine filter fst snd] in *. rewrite K.
    destruct (_ && _)%bool; cbn [length]; auto. }
  rewrite C. clear C. unfold get_ml_rhi in *. cbv zeta in *. rewrite F1, F2 in *. clear F1 F2 L N5.
  set (wh := match option_map Fin e with Some e' => _ | None => _ end) in *.
  assert (W : wh = map (fun g : Z * xr => (wet_snow (fst g) && match e with None => true | Some e =>
       match snd g with Fin z => if Rle_dec (Rabs (z - e)) (3 / 2) then true else false | _ => false end end)%bool) gs).
  { unfold wh. destruct e as [e|]; cbn [option_map]; rewrite !map_map.
    - rewrite !land_map. apply map_ext. intros (c, x). cbn [fst snd]. rewrite near_b. apply andb_comm.
    - apply map_ext. intros (c, x). symmetry. apply andb_true_r. }
  rewrite W, msel_map in *. clear W wh. rewrite map_length in *.
  destruct (10 <? _)%nat; auto. destruct (forallb finite _); auto. discriminate.
Qed.

(** the class map before wet snow is renumbered has codes -1, 0, 1, 2 *)
Lemma ml_codes {F} {fo : FloatOps F} (s : scan F) minRH thr mu fh : ml_map s minRH thr mu fh -> forall c, In c fh -> c <> 5%Z.
Proof.
  intros (L & G) c Hc. apply In_nth_error in Hc as (i & Hi). pose proof (nth_error_lt _ _ Hi) as Hl. rewrite L in Hl.
  destruct (G i Hl) as (k & Hk & _ & E). rewrite E in Hi. injection Hi as <-. unfold ml_code.
  destruct (rho_bad s minRH i), (sn_bad s thr i); lia.
Qed.

Theorem C96_index_error (s : scan xr) ut bd method st minRH (e : option R) n thr h hca sc fh fw fc : scan_ok s ->
  s_dz s <> [] -> s_heights s = Some h -> (st = "rhi" \/ st = "grid")%string ->
  run_winter true false s ut bd method st minRH (option_map Fin e) n thr = Ok (hca, sc, (fh, fw, fc)) ->
  run_winter true true s ut bd method st minRH (option_map Fin e) n thr =
    if (10 <? ml_count e fh h)%nat then Raise IndexError else Ok (hca, sc, (fh, fw, fc)).
Proof.
  intros Hok Hd Hh Hst E.
  assert (Hl : (length (s_dz s) <> 0)%nat) by (intro N; apply length_zero_iff_nil in N; auto).
  assert (Eb : (String.eqb st "rhi" || String.eqb st "grid")%bool = true) by (destruct Hst as [-> | ->]; reflexivity).
  assert (exists m, melting_layer true false s st bd minRH (option_map Fin e) n thr = Ok m) as ((((lev, z), fh0), sm) & Em).
  { unfold run_winter in E. destruct (melting_layer true false s st bd minRH (option_map Fin e) n thr); try discriminate; eauto. }
  assert (Efh : fh = msetc (map (fun c => (c =? 2)%Z) fh0) 5%Z fh0).
  { unfold run_winter in E. rewrite Em in E. cbn [bind] in E.
    apply bind_ok in E as (w & _ & E). apply bind_ok in E as (hw & _ & E).
    apply bind_ok in E as (c & _ & E). apply bind_ok in E as (hc & _ & E). cbv zeta in E.
    apply (f_equal (fun r => match r with Ok (_, _, (x, _, _)) => x | _ => fh end)) in E. symmetry. exact E. }
  assert (Et : melting_layer true true s st bd minRH (option_map Fin e) n thr =
    if (10 <? ml_count e fh h)%nat then Raise IndexError else Ok (lev, z, fh0, sm)).
  { destruct (melting_layer_ok _ _ _ _ _ _ _ _ _ _ _ _ _ Hok Em) as (sh & mu & _ & _ & Mf & _ & _).
    unfold melting_layer in *. rewrite !loud_gates in * by auto.
    apply bind_ok in Em as (sc0 & -> & Em). cbn [bind]. apply bind_ok in Em as (fa & -> & Em). cbn [bind].
    cbv zeta in *. rewrite Hh, Eb in *. apply bind_ok in Em as ((lv, zz) & Er & Em). cbn [fst snd] in Em.
    set (f3 := msetc _ (-1)%Z (msetc _ _ _)) in *.
    assert (f3 = fh0) as Ef by congruence. rewrite Ef in *. clear f3 Ef.
    rewrite (rhi_raises true fh0 h e (lv, zz)); auto.
    - rewrite <- Efh. destruct (10 <? _)%nat; [reflexivity|]. exact Em.
    - destruct Hok as (_ & _ & _ & _ & _ & _ & _ & H8). rewrite Hh in H8. cbn [opt_len] in H8. destruct Mf. congruence.
    - intros c0. eapply (ml_codes s); eauto. }
  destruct (10 <? ml_count e fh h)%nat.
  - unfold run_winter. rewrite Et. reflexivity.
  - eapply run_from_melting; eauto.
Qed.

(** ** Non-vacuity: twelve wet-snow gates *)
Definition wet_scan : scan (option Q) :=
  mkscan [12]%nat (repeat (Some 30%Q) 12) (Some (repeat (Some 1%Q) 12)) (Some (repeat (Some 0%Q) 12))
    (repeat (Some 0.93%Q) 12) (repeat false 12) None (Some (repeat (Some 0%Q) 12)) (Some (repeat (Some 4%Q) 12)) None.
Example C96_example :
  match run_winter true false wet_scan false BS "linear" "rhi" (Some 0.5%Q) (Some (Some 4%Q)) 36 (Some 5%Q) with
  | Ok (hca, _, _) => hca | _ => [] end = repeat 5%Z 12 /\
  run_winter true true wet_scan false BS "linear" "rhi" (Some 0.5%Q) (Some (Some 4%Q)) 36 (Some 5%Q) = Raise IndexError.
Proof. split; vm_compute; reflexivity. Qed.
