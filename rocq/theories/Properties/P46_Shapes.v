(** * C107: fields of different shapes *)
From Coq Require Import QArith.
From Verif Require Import Base.Num Base.ListFacts Base.QOps.
From Verif Require Import Model.Common Model.BlendedRain Model.Tropical Model.Dsd Model.Misc.
From Verif Require Model.LiquidIce.
Open Scope nat_scope.

(** Specification.  NumPy aligns shapes at the last axis; two axes of different
    lengths, neither of them 1, cannot be combined. *)
Definition incompatible (s t : list nat) : Prop :=
  exists i a b, nth_error (rev s) i = Some a /\ nth_error (rev t) i = Some b /\ a <> b /\ a <> 1 /\ b <> 1.
(** two 1-D arrays of different lengths, neither of them 1 *)
Lemma incompatible_1d n m : n <> m -> n <> 1 -> m <> 1 -> incompatible [n] [m].
Proof. intros. exists 0, n, m. auto. Qed.

Lemma axes_clash_spec s t : axes_clash s t = true <->
  exists i a b, nth_error s i = Some a /\ nth_error t i = Some b /\ a <> b /\ a <> 1 /\ b <> 1.
Proof.
  revert t. induction s as [|x s IH]; intros [|y t]; cbn [axes_clash].
  1-3: split; [discriminate|]; intros (i & a & b & A & B & _); destruct i; discriminate.
  rewrite Bool.orb_true_iff, !Bool.andb_true_iff, !Bool.negb_true_iff, !Nat.eqb_neq, IH. split.
  - intros [((N & N1) & N2)|(i & a & b & H)]; [exists 0, x, y; auto|exists (S i), a, b; auto].
  - intros ([|i] & a & b & A & B & H); [injection A as ->; injection B as ->; left; tauto|right; exists i, a, b; auto].
Qed.
Lemma clash_spec s t : clash s t = true <-> incompatible s t.
Proof. apply axes_clash_spec. Qed.
Lemma incompatible_sym s t : incompatible s t -> incompatible t s.
Proof. intros (i & a & b & A & B & N & N1 & N2). exists i, b, a. auto. Qed.
Lemma incompatible_neq s t : incompatible s t -> shape_eqb s t = false.
Proof.
  intros (i & a & b & A & B & N & _). destruct (shape_eqb s t) eqn:E; auto. apply shape_eqb_eq in E. congruence.
Qed.
Lemma misfit_raises {A} l s t : In (s, t) l -> incompatible s t -> @misfit A l = Raise ValueError.
Proof.
  intros I C. unfold misfit. assert (existsb (fun p => clash (fst p) (snd p)) l = true) as ->; auto.
  apply existsb_exists. exists (s, t). split; auto. now apply clash_spec.
Qed.
Lemma is_prefix_spec s t : is_prefix s t = true <-> exists u, t = s ++ u.
Proof.
  revert t. induction s as [|a s IH]; intros [|b t]; cbn [is_prefix].
  - split; auto. now exists []. - split; auto. now exists (b :: t). - split; [discriminate|intros (u & E); discriminate].
  - rewrite Bool.andb_true_iff, Nat.eqb_eq, IH. split.
    + intros (-> & u & ->). now exists u.
    + intros (u & E). injection E as -> ->. eauto.
Qed.
Lemma index_raises {A} s t : (forall u, t <> s ++ u) -> @index_misfit A s t = Raise IndexError.
Proof.
  intro N. unfold index_misfit. destruct (is_prefix s t) eqn:E; auto.
  apply is_prefix_spec in E as (u & E). destruct (N u E).
Qed.

Section LawFree.
Context {F : Type} `{FloatOps F}.

(** ** calc_blended_rain *)
Theorem C107_blended_refuses (dz zdr kdp : arr F) ice_flag band o :
  incompatible (ashape dz) (ashape kdp) \/
  band = "S"%string /\ (incompatible (ashape dz) (ashape zdr) \/ incompatible (ashape kdp) (ashape zdr)) ->
  calc_blended_rain (AArr dz) (AArr zdr) (AArr kdp) ice_flag band o = Raise ValueError.
Proof.
  intro C. unfold calc_blended_rain. cbn [check_for_array as_array bind].
  destruct C as [C|(-> & C)].
  - rewrite (incompatible_neq _ _ C), Bool.andb_false_r, Bool.orb_true_r. eapply misfit_raises; [left; reflexivity|exact C].
  - rewrite String.eqb_refl. cbn [orb].
    destruct (shape_eqb (ashape dz) (ashape zdr) && shape_eqb (ashape dz) (ashape kdp))%bool eqn:E.
    + apply Bool.andb_true_iff in E as (E1 & E2). apply shape_eqb_eq in E1, E2. rewrite <- E1, <- E2 in C.
      destruct C as [C|C]; apply incompatible_neq in C; rewrite shape_eqb_refl in C; discriminate.
    + destruct C as [C|C]; (eapply misfit_raises; [|exact C]); cbn; tauto.
Qed.

(** (at other bands zdr is not looked at, whatever its shape:
    C09_blended_other_bands_ignore_zdr) *)

(** ** csu_hidro_rain *)
Theorem C107_hidro_refuses (dz zdr kdp : arr F) fhc band o : fhc <> ANone ->
  incompatible (ashape dz) (ashape kdp) \/
  band = "S"%string /\ (incompatible (ashape dz) (ashape zdr) \/ incompatible (ashape kdp) (ashape zdr)) ->
  csu_hidro_rain (AArr dz) (AArr zdr) (AArr kdp) fhc band o = Raise ValueError.
Proof.
  intros Nf C. unfold csu_hidro_rain. destruct fhc as [|dt v|c]; [contradiction| |]; cbn [check_for_array as_array bind].
  all: destruct C as [C|(-> & C)];
  [rewrite (incompatible_neq _ _ C), Bool.andb_false_r, Bool.orb_true_r; eapply misfit_raises; [left; reflexivity|exact C]|
   rewrite String.eqb_refl; cbn [orb];
   destruct (shape_eqb (ashape dz) (ashape zdr) && shape_eqb (ashape dz) (ashape kdp))%bool eqn:E;
   [apply Bool.andb_true_iff in E as (E1 & E2); apply shape_eqb_eq in E1, E2; rewrite <- E1, <- E2 in C;
    destruct C as [C|C]; apply incompatible_neq in C; rewrite shape_eqb_refl in C; discriminate
   |destruct C as [C|C]; (eapply misfit_raises; [|exact C]); cbn; tauto]].
Qed.
Theorem C107_hidro_class_refused (dz zdr kdp fhc : arr F) band o :
  ashape dz = ashape zdr -> ashape dz = ashape kdp -> incompatible (ashape fhc) (ashape dz) ->
  csu_hidro_rain (AArr dz) (AArr zdr) (AArr kdp) (AArr fhc) band o = Raise ValueError.
Proof.
  intros S1 S2 C. unfold csu_hidro_rain. cbn [check_for_array as_array bind].
  rewrite <- S1, <- S2, shape_eqb_refl. cbn [andb broadcast]. rewrite (incompatible_neq _ _ C).
  erewrite misfit_raises; [reflexivity|left; reflexivity|exact C].
Qed.
(** at other bands zdr is not looked at, whatever its shape *)
Theorem C107_hidro_other_zdr_unused (dz zdr zdr' kdp : arr F) fhc band o : band <> "S"%string ->
  csu_hidro_rain (AArr dz) (AArr zdr) (AArr kdp) fhc band o
  = csu_hidro_rain (AArr dz) (AArr zdr') (AArr kdp) fhc band o.
Proof.
  intros N. unfold csu_hidro_rain. destruct fhc as [|dt v|c]; auto; cbn [check_for_array as_array bind];
  apply String.eqb_neq in N; rewrite N; cbn [orb];
  unfold hidro_core, hidro_core_with; rewrite N;
  destruct (shape_eqb (ashape dz) (ashape kdp)), (shape_eqb (ashape dz) (ashape zdr)), (shape_eqb (ashape dz) (ashape zdr'));
    reflexivity.
Qed.

(** ** calc_blended_rain_tropical: all three fields are combined at every band *)
Theorem C107_tropical_refuses (dz zdr kdp : arr F) cs fhc predef band o :
  incompatible (ashape dz) (ashape zdr) \/ incompatible (ashape dz) (ashape kdp) \/ incompatible (ashape kdp) (ashape zdr) ->
  calc_blended_rain_tropical (AArr dz) (AArr zdr) (AArr kdp) cs fhc predef band o = Raise ValueError.
Proof.
  intro C. unfold calc_blended_rain_tropical. cbn [check_for_array as_array bind].
  destruct (shape_eqb (ashape dz) (ashape zdr) && shape_eqb (ashape dz) (ashape kdp))%bool eqn:E; cbn [negb].
  - apply Bool.andb_true_iff in E as (E1 & E2); apply shape_eqb_eq in E1, E2; rewrite <- E1, <- E2 in C.
    destruct C as [C|[C|C]]; apply incompatible_neq in C; rewrite shape_eqb_refl in C; discriminate.
  - destruct C as [C|[C|C]]; [| apply incompatible_sym in C|]; (eapply misfit_raises; [|exact C]); cbn; tauto.
Qed.
(** a convective/stratiform map that does not fit: ValueError; a class array
    whose shape is not the beginning of dz's: IndexError *)
Theorem C107_tropical_maps_refused (dz zdr kdp a : arr F) x predef band o :
  ashape dz = ashape zdr -> ashape dz = ashape kdp ->
  (incompatible (ashape a) (ashape dz) ->
    calc_blended_rain_tropical (AArr dz) (AArr zdr) (AArr kdp) (AArr a) x predef band o = Raise ValueError) /\
  ((forall u, ashape dz <> ashape a ++ u) ->
    calc_blended_rain_tropical (AArr dz) (AArr zdr) (AArr kdp) ANone (AArr a) predef band o = Raise IndexError).
Proof.
  intros S1 S2. unfold calc_blended_rain_tropical. cbn [check_for_array as_array bind].
  rewrite <- S1, <- S2, shape_eqb_refl. cbn [andb negb broadcast_opt broadcast]. split; intro C.
  - rewrite (incompatible_neq _ _ C). erewrite misfit_raises; [reflexivity|left; reflexivity|exact C].
  - cbn [bind index_opt]. destruct (shape_eqb (ashape a) (ashape dz)) eqn:E.
    + apply shape_eqb_eq in E. destruct (C []). now rewrite app_nil_r.
    + now rewrite index_raises.
Qed.

(** ** calc_dsd *)
(** the retrievals that do not use kdp do not look at its shape either *)
Theorem C107_dsd_kdp_unused (dz zdr kdp kdp' : arr F) band meth : (band = "C" \/ meth = "2013")%string ->
  calc_dsd (AArr dz) (AArr zdr) (AArr kdp) band meth = calc_dsd (AArr dz) (AArr zdr) (AArr kdp') band meth.
Proof.
  intro B. unfold calc_dsd. cbn [check_for_array as_array bind]. destruct B as [-> | ->]; [reflexivity|].
  destruct (String.eqb band "S"); reflexivity.
Qed.
(** they index by zdr: IndexError unless its shape is the beginning of dz's *)
Theorem C107_dsd_zdr_refused (dz zdr kdp : arr F) band meth :
  (band = "C" \/ band = "S" /\ meth = "2013")%string -> (forall u, ashape dz <> ashape zdr ++ u) ->
  calc_dsd (AArr dz) (AArr zdr) (AArr kdp) band meth = Raise IndexError.
Proof.
  intros B N. assert (E : shape_eqb (ashape dz) (ashape zdr) = false).
  { destruct shape_eqb eqn:E; auto. apply shape_eqb_eq in E. destruct (N []). now rewrite app_nil_r. }
  unfold calc_dsd. cbn [check_for_array as_array bind]. rewrite E, index_raises by auto.
  destruct B as [-> |(-> & ->)]; reflexivity.
Qed.
Theorem C107_dsd_2004_refuses (dz zdr kdp : arr F) meth : meth <> "2013"%string ->
  incompatible (ashape dz) (ashape zdr) \/ incompatible (ashape dz) (ashape kdp) \/ incompatible (ashape kdp) (ashape zdr) ->
  calc_dsd (AArr dz) (AArr zdr) (AArr kdp) "S" meth = Raise ValueError.
Proof.
  intros N C. unfold calc_dsd. cbn [check_for_array as_array bind]. apply String.eqb_neq in N. rewrite N, String.eqb_refl.
  destruct (shape_eqb (ashape dz) (ashape zdr) && shape_eqb (ashape dz) (ashape kdp))%bool eqn:E; cbn [negb].
  - apply Bool.andb_true_iff in E as (E1 & E2); apply shape_eqb_eq in E1, E2; rewrite <- E1, <- E2 in C.
    destruct C as [C|[C|C]]; apply incompatible_neq in C; rewrite shape_eqb_refl in C; discriminate.
  - destruct C as [C|[C|C]]; (erewrite misfit_raises; [reflexivity| |exact C]); cbn; tauto.
Qed.

(** ** calc_liquid_ice_mass: only the sizes matter *)
Definition reshaped (a b : arr F) : Prop := adata a = adata b.
Theorem C107_masses_ignore_shapes pf (d r h r' h' : arr F) T T' Hfrz meth a b :
  reshaped r r' -> reshaped h h' ->
  match T, T' with ANone, ANone => True | AArr t, AArr t' => reshaped t t' | _, _ => False end ->
  LiquidIce.calc_liquid_ice_mass pf (AArr d) (AArr r) (AArr h) T Hfrz meth a b
  = LiquidIce.calc_liquid_ice_mass pf (AArr d) (AArr r') (AArr h') T' Hfrz meth a b.
Proof.
  unfold reshaped, LiquidIce.calc_liquid_ice_mass. intros -> -> HT.
  destruct T, T'; try contradiction; [reflexivity|]. now rewrite HT.
Qed.
(** zdr or z of another size (neither a single value): ValueError, once the
    freezing level is known *)
Theorem C107_masses_refused pf (d r h : arr F) T Hfrz meth a b (n := length (adata d)) :
  T = ANone \/ (exists t, T = AArr t /\ (Hfrz <> None \/ exists x, LiquidIce.get_freezing_altitude pf (adata t) (adata h) = Ok x)) ->
  n <> 1 ->
  (length (adata r) <> n -> length (adata r) <> 1 ->
    LiquidIce.calc_liquid_ice_mass pf (AArr d) (AArr r) (AArr h) T Hfrz meth a b = Raise ValueError) /\
  (length (adata r) = n -> length (adata h) <> n -> length (adata h) <> 1 -> (a = None \/ b <> None) ->
    LiquidIce.calc_liquid_ice_mass pf (AArr d) (AArr r) (AArr h) T Hfrz meth a b = Raise ValueError).
Proof.
  subst n. intros HT N1.
  assert (K : exists t hf, (match T with
      | ANone => Ok None
      | AArr a => Ok (Some (adata a))
      | AScalar _ _ => Unmodelled end) = Ok t /\ LiquidIce.get_hfrz pf t (adata h) Hfrz = Ok hf).
  { destruct HT as [-> |(t & -> & Hh)].
    - exists None. destruct Hfrz as [x|]; eexists; split; reflexivity.
    - exists (Some (adata t)). destruct Hfrz as [x|]; [exists x; auto|]. destruct Hh as [Hh|(x & E)]; [contradiction|].
      exists x. auto. }
  destruct K as (t & hf & K1 & K2). unfold LiquidIce.calc_liquid_ice_mass. rewrite K1. cbn [bind]. rewrite K2. cbn [bind]. split.
  - intros Hr Hr1. destruct (Nat.eqb_spec (length (adata d)) (length (adata r))) as [E|E]; [congruence|]. cbn [negb].
    erewrite misfit_raises; [reflexivity|left; reflexivity|]. apply incompatible_1d; auto.
  - intros Hr Hh Hh1 Hab. rewrite Hr, Nat.eqb_refl.
    destruct (Nat.eqb_spec (length (adata d)) (length (adata h))) as [E|E]; [congruence|]. cbn [negb].
    erewrite misfit_raises; [|left; reflexivity|apply incompatible_1d; auto].
    destruct a, b; try reflexivity. destruct Hab; congruence.
Qed.

(** ** get_freezing_altitude: a sounding with fewer temperatures than heights
    raises; one with more is accepted, and its exact zeros are then overlooked:
    the temperatures beyond the number of heights only take part in the test
    whether the sounding passes through 0 *)
Theorem C107_short_sounding_refused pf (T z : list F) : length T < length z ->
  LiquidIce.get_freezing_altitude pf T z = Raise IndexError.
Proof.
  intro L. unfold LiquidIce.get_freezing_altitude. destruct (Nat.eqb_spec (length T) (length z)); [lia|].
  apply Nat.ltb_lt in L. now rewrite L.
Qed.

(** ** The filters *)
Theorem C107_filters_refuse (dz zdr : arr F) height ranges drs bad :
  incompatible (ashape dz) (ashape zdr) ->
  insect_filter dz zdr height None ranges drs bad = Raise ValueError /\
  differential_phase_filter dz (AArr zdr) = Raise ValueError.
Proof.
  intro C. unfold insect_filter, differential_phase_filter. rewrite (incompatible_neq _ _ C). cbn [negb].
  rewrite (incompatible_neq _ _ (incompatible_sym _ _ C)).
  split; (eapply misfit_raises; [left; reflexivity|auto]).
Qed.
End LawFree.

(** 0 degrees at 2 km, the highest zero, is overlooked because of a fourth temperature *)
Theorem C107_long_sounding_overlooks_zero (pf : list (option Q) -> list (option Q) -> option Q) :
  LiquidIce.get_freezing_altitude pf (map Some [5; -5; 0; -1]%Q) (map Some [0; 1; 2]%Q) = Ok (Some (Qmake 1 2)) /\
  LiquidIce.get_freezing_altitude pf (map Some [5; -5; 0]%Q) (map Some [0; 1; 2]%Q) = Ok (Some (Qmake 2 1)).
Proof. split; vm_compute; reflexivity. Qed.

(** ** The hypotheses are met: 3 gates of dz, 4 of zdr; and a 2 x 3 sweep against
    a 3 x 2 one, which the masses accept *)
Example ex107 : incompatible [3] [4] /\ incompatible [2; 3] [3; 2] /\ ~ incompatible [2; 3] [3] /\
  (forall u, [3] <> [4] ++ u).
Proof.
  split; [now apply incompatible_1d|]. split; [exists 0, 3, 2; repeat split; discriminate|]. split; [|discriminate].
  intro C. apply clash_spec in C. discriminate.
Qed.
