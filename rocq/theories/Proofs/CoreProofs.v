(** The part shared by csu_fhc_winter and csu_fhc_cold_newml1 (weights per
    class, beta memberships only), gate by gate. *)
From Coq Require Import Reals Lra Lia Qreals Arith.
From Verif Require Import Base.Num Base.ListFacts Base.XReal Base.XTac Base.Pointwise Base.XArith.
From Verif Require Import Model.Tables Model.Beta Model.TTraps Model.Hid.
From Verif Require Import Spec.HidSpec.
From Verif Require Import Proofs.HidProofs Proofs.BetaProofs Proofs.SummerProofs Proofs.SummerReal.

Section S.
Context {F : Type} `{FloatOps F}.

(** the score array of the classes [types] *)
Definition core (s : season) (use_temp : bool) (weights : key -> nat -> F) (method : string)
  (a : fields F) (tf : F) (bd : band) (types : list nat) : res (list (list F)) :=
  if negb (fhc_vars a KDZ) then PyNone else
  let use_temp := if fhc_vars a KT then use_temp else false in
  let rd := radar_data a in
  let sz := dz_size a in
  let sets := get_sets s use_temp tf bd in
  let pol_flag := get_pol_flag (fhc_vars a) in
  let v := used_vars a use_temp in
  match varlist method with
  | None => PyNone
  | Some vl =>
      let w c k := weights k c in
      let calc c := calculate_test v (w c) rd sets vl (weight_sum v (w c) vl) c sz in
      let beta k c := match rd k with Some x => beta_of sz x (sets k) c
                      | None => Raise ValueError end in
      get_test_list (contains "hybrid" method) (contains "linear" method)
                pol_flag use_temp (v KDZ) calc (beta KT) (beta KDZ) types
  end.

Definition winter_types (warm : bool) : list nat := if warm then [4; 5]%nat else [0; 1; 2; 3]%nat.

Lemma winter_core ut w method a tf warm bd :
  csu_fhc_winter ut w method a tf warm bd =
  (rows <- core Winter ut w method a tf bd (winter_types warm) ;;
   if negb (length (concat rows) =? length (winter_types warm) * prod (shape (a KDZ)))%nat then Raise ValueError
   else Ok (Scores (length (winter_types warm) :: shape (a KDZ)) (concat rows))).
Proof.
  unfold csu_fhc_winter, core, winter_types. rewrite <- shape_eq.
  destruct (negb (fhc_vars a KDZ)); auto. destruct (varlist method); auto.
Qed.

Lemma ml1_core ut w method a n tf bd :
  csu_fhc_cold_newml1 ut w method a n tf bd =
  (rows <- core Melt ut w method a tf bd (seq 0 2) ;;
   if negb (length (concat rows) =? n * prod (shape (a KDZ)))%nat then Raise ValueError
   else Ok (Scores (n :: shape (a KDZ)) (concat rows))).
Proof.
  unfold csu_fhc_cold_newml1, core. rewrite <- shape_eq, dz_set_len, csv_len.
  destruct (negb (fhc_vars a KDZ)); auto. destruct (varlist method); auto.
Qed.

Lemma summer_core ut w method a n tf bd :
  csu_fhc_summer ut w method a false n tf bd true =
  (rows <- core Summer ut (fun k _ => w k) method a tf bd (seq 0 10) ;;
   if negb (length (concat rows) =? n * prod (shape (a KDZ)))%nat then Raise ValueError
   else Ok (Scores (n :: shape (a KDZ)) (concat rows))).
Proof.
  unfold csu_fhc_summer, core. rewrite <- shape_eq, dz_set_len, csv_len.
  destruct (negb (fhc_vars a KDZ)); auto. destruct (varlist method); auto.
Qed.

(** the score of class c at one gate *)
Definition core_gate (s : season) (present : key -> bool) (use_temp : bool) (weights : key -> nat -> F)
  (method : string) (tf : F) (bd : band) (g : key -> option F) (c : nat) : res F :=
  let ut := if present KT then use_temp else false in
  let sets := get_sets s ut tf bd in
  let pol := get_pol_flag present in
  let v k := match k with KT => (present KT && ut)%bool | _ => present k end in
  match varlist method with
  | None => PyNone
  | Some vl =>
      let gb k c := match g k with Some x => gate_beta (sets k) c x | None => Raise ValueError end in
      gate_row (contains "hybrid" method) pol ut
        (fun c => gate_calc v (fun k => weights k c) sets vl (weight_sum v (fun k => weights k c) vl) c g)
        (gb KT) (gb KDZ) c
  end.

Lemma core_scores s ut w method a tf bd types rows : types <> [] ->
  core s ut w method a tf bd types = Ok rows ->
  length rows = length types /\ (forall r, In r rows -> length r = size (a KDZ)) /\
  (forall j c i, nth_error types j = Some c -> (i < size (a KDZ))%nat ->
    exists y, nth_error (concat rows) (j * size (a KDZ) + i) = Some y /\
      core_gate s (fun k => supplied (a k)) ut w method tf bd
        (fun k => option_map f32 (at_gate (a k) i)) c = Ok y).
Proof.
  unfold core. intros Hty E.
  destruct (fhc_vars a KDZ) eqn:Edz; [|discriminate]. cbn [negb] in E.
  set (ut' := if fhc_vars a KT then ut else false) in *.
  unfold core_gate. destruct (varlist method) as [vl|] eqn:Evl; [|discriminate].
  match type of E with context [get_test_list ?h ?l ?p _ ?d ?cc ?bt ?bz _] =>
    set (hyb := h) in *; set (lin := l) in *; set (pol := p) in *; set (calc := cc) in *;
    set (bT := bt) in *; set (bZ := bz) in * end.
  assert (Hm : hyb = true \/ (lin = true /\ pol = true)).
  { destruct hyb eqn:Eh; [now left|]. destruct pol eqn:Ep.
    - right. split; auto. unfold varlist in Evl. fold hyb lin in Evl. rewrite Eh in Evl.
      destruct lin; [auto|discriminate].
    - exfalso. destruct types as [|t0 ts]; [contradiction|].
      rewrite get_test_list_unbound in E. discriminate. }
  unfold used_vars at 1 in E. rewrite Edz in E. rewrite get_test_list_map in E by auto.
  rewrite <- size_eq.
  destruct (core_rows hyb pol ut' calc bT bZ
     (fun i c => gate_calc (used_vars a ut') (fun k => w k c) (get_sets s ut' tf bd) vl
            (weight_sum (used_vars a ut') (fun k => w k c) vl) c (gv (radar_data a) i))
     (fun i c => match gv (radar_data a) i KT with Some x => gate_beta (get_sets s ut' tf bd KT) c x
                 | None => Raise ValueError end)
     (fun i c => match gv (radar_data a) i KDZ with Some x => gate_beta (get_sets s ut' tf bd KDZ) c x
                 | None => Raise ValueError end)
     (dz_size a) types rows) as (L & Lr & G); auto.
  - unfold calc. intros c l El. now apply calculate_test_gate in El.
  - intros c l El. now apply beta_gate_sets in El.
  - intros c l El. now apply beta_gate_sets in El.
  - split; auto. split; auto.
    intros j c i Hj Hi. destruct (G j c i) as (y & Hy & Ey); auto.
    exists y. split; auto. rewrite <- Ey. clear Ey.
    change (supplied (a KT)) with (fhc_vars a KT). fold ut'.
    change (get_pol_flag (fun k => supplied (a k))) with pol. fold hyb.
    assert (Gx : forall k, gv (radar_data a) i k = option_map f32 (at_gate (a k) i)) by (intro; apply gv_at).
    assert (Fm : forall l, flat_map (fun k => match gv (radar_data a) i k with Some x => [(k, x)] | None => [] end) l
      = flat_map (fun k => match option_map f32 (at_gate (a k) i) with Some x => [(k, x)] | None => [] end) l).
    { intro l. induction l as [|k l IHl]; simpl; auto. now rewrite Gx, IHl. }
    rewrite !Gx. unfold gate_row. cbv beta.
    unfold gate_calc. rewrite Fm. reflexivity.
Qed.
End S.

Open Scope R_scope.

(** ** Totality *)
Lemma calc_total' {F} {fo : FloatOps F} (a : fields F) v w sets vl ws c :
  (forall k, In k vl -> supplied (a k) = true -> forall x, exists y, gate_beta (sets k) c x = Ok y) ->
  sizes_match a -> existsb (fun k => supplied (a k)) vl = true ->
  exists l, calculate_test v w (radar_data a) sets vl ws c (dz_size a) = Ok l.
Proof.
  intros Hk Hsz Hex. unfold calculate_test.
  match goal with |- exists l, (rows <- mapM ?f ?l0 ;; _) = Ok l =>
    destruct (mapM_total f l0) as (rows & E) end.
  - intros (k, x) I. apply in_flat in I as (Hin & Hx).
    assert (Sp : supplied (a k) = true) by (unfold radar_data in Hx; unfold supplied; destruct (a k); auto; discriminate).
    destruct (beta_of_total (dz_size a) x (sets k) c) as (l & El).
    + rewrite (rd_len _ _ _ Hx), size_eq, (Hsz _ Sp). lia.
    + intro v'. now apply Hk.
    + rewrite El. simpl. eauto.
  - rewrite E. cbn [bind]. pose proof (mapM_rows_nonempty _ _ _ E (flat_map_present a vl Hex _)).
    destruct rows; [contradiction|]. simpl. eauto.
Qed.

Lemma beta_total' {F} {fo : FloatOps F} (a : fields F) (set : option (bset F)) k c : sizes_match a -> supplied (a k) = true ->
  (forall x, exists y, gate_beta set c x = Ok y) ->
  exists l, match radar_data a k with Some x => beta_of (dz_size a) x set c
            | None => Raise ValueError end = Ok l.
Proof.
  intros Hsz Sp G. destruct (radar_data a k) as [x|] eqn:Hx.
  - apply beta_of_total; auto. rewrite (rd_len _ _ _ Hx), size_eq, (Hsz _ Sp). lia.
  - exfalso. unfold radar_data, supplied in *. destruct (a k); discriminate.
Qed.

Lemma core_total {F} {fo : FloatOps F} s ut w method (a : fields F) tf bd types :
  scores_ok a ut method false ->
  (forall c k, In c types -> supplied (a k) = true -> (k = KT -> ut = true) ->
     forall x, exists y, gate_beta (get_sets s (if supplied (a KT) then ut else false) tf bd k) c x = Ok y) ->
  exists rows, core s ut w method a tf bd types = Ok rows.
Proof.
  intros (Hdz & Hok & Hsz & Hm) HG. unfold core.
  change (fhc_vars a KDZ) with (supplied (a KDZ)). rewrite Hdz. cbn [negb].
  change (fhc_vars a KT) with (supplied (a KT)).
  set (ut' := if supplied (a KT) then ut else false) in *.
  destruct (varlist method) as [vl|] eqn:Evl.
  2:{ exfalso. unfold varlist in Evl. destruct Hm as [Hm|(Hm & _)]; rewrite Hm in Evl;
      destruct (contains "hybrid" method); discriminate. }
  cbv zeta. pose proof (varlist_cases _ _ Evl) as Cs.
  assert (Hm' : contains "hybrid" method = true \/
     (contains "linear" method = true /\ get_pol_flag (fhc_vars a) = true)).
  { destruct Hm as [Hm|(Hm & Hp & _)]; auto. right. split; auto. rewrite any_pol_flag. exact Hp. }
  assert (Z : used_vars a ut' KDZ = true) by exact Hdz. rewrite Z.
  rewrite get_test_list_map by auto. apply mapM_total. intros c Hc. unfold one_row.
  assert (BZ : exists l, match radar_data a KDZ with
     Some x => beta_of (dz_size a) x (get_sets s ut' tf bd KDZ) c
     | None => Raise ValueError end = Ok l).
  { apply beta_total'; auto. apply HG; auto. discriminate. }
  assert (Cc : get_pol_flag (fhc_vars a) = true -> exists l,
     calculate_test (used_vars a ut') (fun k => w k c) (radar_data a) (get_sets s ut' tf bd) vl
         (weight_sum (used_vars a ut') (fun k => w k c) vl) c (dz_size a) = Ok l).
  { intro Hp. rewrite any_pol_flag in Hp. apply calc_total'; auto.
    - intros k Hin Sp. apply HG; auto. intros ->.
      destruct Cs as [(_ & ->)|(Hh & _ & ->)].
      + simpl in Hin. decompose [or] Hin; discriminate || contradiction.
      + destruct Hm as [Hm|(_ & _ & Hm)]; [congruence|].
        destruct (Hm Sp) as [->|?]; [auto|discriminate].
    - destruct Cs as [(_ & ->)|(_ & _ & ->)]; [exact Hp|].
      apply existsb_exists in Hp as (k & Hin & Hs). apply existsb_exists. exists k.
      split; auto. unfold pol_keys in Hin. unfold all_keys. simpl in Hin |- *. tauto. }
  assert (BT : ut' = true -> exists l, match radar_data a KT with
     Some x => beta_of (dz_size a) x (get_sets s ut' tf bd KT) c
     | None => Raise ValueError end = Ok l).
  { intro Eu. assert (Sp : supplied (a KT) = true) by (unfold ut' in Eu; destruct (supplied (a KT)); auto).
    apply beta_total'; auto. apply HG; auto. intros _. unfold ut' in Eu. now rewrite Sp in Eu. }
  destruct BZ as (lz & ->).
  destruct (contains "hybrid" method) eqn:Eh.
  - destruct (get_pol_flag (fhc_vars a)).
    + destruct Cc as (lc & ->); auto. cbn [bind]. destruct ut'.
      * destruct BT as (lt & ->); auto. cbn [bind]. eauto.
      * cbn [bind]. eauto.
    + destruct ut'; [|eauto]. destruct BT as (lt & ->); auto. cbn [bind]. eauto.
  - apply Cc. destruct Hm' as [?|(_ & ?)]; [discriminate|auto].
Qed.
