(** * C46: trapezoid temperature memberships (csu_t_traps.get_hid_traps) *)
From Coq Require Import Reals Lra Lia.
From Verif Require Import Base.Num Base.ListFacts Base.XReal Base.XTac Base.Pointwise Base.XArith Base.QOps.
From Verif Require Import Model.TTraps Spec.TrapSpec Proofs.TrapProofs.
Open Scope R_scope.

(** A class index above 9 returns None, whatever the temperatures. *)
Theorem C46_out_of_range (F : Type) (fo : FloatOps F) dt c (xs : list F) :
  (10 <= c)%nat -> get_hid_traps dt c xs = PyNone.
Proof. intro. do 10 (destruct c as [|c]; [lia|]). reflexivity. Qed.

Lemma trap_len (F : Type) (fo : FloatOps F) dt c (xs out : list F) :
  get_hid_traps dt c xs = Ok out -> length out = length xs.
Proof.
  intro E. do 10 (destruct c as [|c];
    [apply (f_equal (fun r => match r with Ok o => length o | _ => length out end)) in E;
     simpl in E; rewrite <- E; symmetry; apply eq_sym;
     unfold t_trap_dz, t_trap_rain, t_trap_ic, t_trap_agg, t_trap_ws, t_trap_ldg, t_trap_hdg,
       t_trap_ha, t_trap_bd, setc, setv, win, wle, wge; pwlen |]).
  discriminate.
Qed.

(** Every class, every array of temperatures (finite, infinite or NaN): each
    output element is the documented piecewise-linear value of its own
    temperature; NaN gives 0; +-inf behave like the outermost pieces. *)
Theorem C46_values c (xs : list xr) : (c <= 9)%nat ->
  exists out, get_hid_traps DFloat c xs = Ok out /\ length out = length xs /\
    (forall i t, nth_error xs i = Some (Fin t) -> nth_error out i = Some (Fin (trap_spec c t))) /\
    (forall i, nth_error xs i = Some NaN -> nth_error out i = Some (Fin 0)) /\
    (forall i, nth_error xs i = Some PInf -> nth_error out i = Some (Fin (trap_spec c 100))) /\
    (forall i, nth_error xs i = Some NInf -> nth_error out i = Some (Fin (trap_spec c (-100)))).
Proof.
  intro Hc.
  assert (G : exists out, get_hid_traps DFloat c xs = Ok out /\
     forall i x, nth_error xs i = Some x -> nth_error out i = Some (trap_x c x)).
  { do 10 (destruct c as [|c];
      [eexists; split; [reflexivity|];
       first [apply trap_dz_at | apply trap_rain_at | apply trap_ic_at | apply trap_agg_at
         | apply trap_ws_at | apply trap_ldg_at | apply trap_hdg_at | apply trap_ha_at
         | apply trap_bd_at] |]). lia. }
  destruct G as (out & E & G). exists out. split; auto. split; [eapply trap_len; eauto|].
  repeat split; intros; apply (G _ _ H).
Qed.

Lemma trap_spec_range c t : -1 <= trap_spec c t <= 1.
Proof. do 9 (destruct c as [|c]; [unfold trap_spec; rdec|]). unfold trap_spec; rdec. Qed.

(** Whatever the temperatures, every membership is a number in [-1, 1]. *)
Theorem C46_range c (xs out : list xr) : get_hid_traps DFloat c xs = Ok out ->
  forall i y, nth_error out i = Some y -> exists r, y = Fin r /\ -1 <= r <= 1.
Proof.
  intros E i y Hy.
  assert (Hc : (c <= 9)%nat).
  { destruct (Nat.le_gt_cases c 9); auto. rewrite C46_out_of_range in E by lia. discriminate. }
  destruct (C46_values c xs Hc) as (o & E' & L & H1 & H2 & H3 & H4).
  assert (o = out) as -> by congruence.
  destruct (nth_error xs i) as [x|] eqn:Ex.
  - pose proof (trap_spec_range c) as HR. destruct x as [t| | |].
    + rewrite (H1 _ _ Ex) in Hy. injection Hy as <-. exists (trap_spec c t); split; auto.
    + rewrite (H3 _ Ex) in Hy. injection Hy as <-. exists (trap_spec c 100); split; auto.
    + rewrite (H4 _ Ex) in Hy. injection Hy as <-. exists (trap_spec c (-100)); split; auto.
    + rewrite (H2 _ Ex) in Hy. injection Hy as <-. exists 0; split; auto; lra.
  - apply nth_error_None in Ex. apply nth_error_lt in Hy. lia.
Qed.

Ltac absle := unfold Rabs; repeat destruct Rcase_abs; lra.

(** High-density graupel and hail are continuous (Lipschitz): a change of d
    degrees changes the membership by at most 0.08 d. *)
Lemma trap_continuous c s t : (c = 7 \/ c = 8)%nat ->
  Rabs (trap_spec c s - trap_spec c t) <= 8 / 100 * Rabs (s - t).
Proof. intros [-> | ->]; unfold trap_spec; rdec; absle. Qed.

(** The discontinuities of the other classes. *)
Definition trap_breaks (c : nat) : list R :=
  match c with
  | 0%nat => [-3; -1] | 1%nat => [-10; -2] | 2%nat | 5%nat => [5] | 3%nat => [5]
  | 4%nat => [-3; 3] | 6%nat => [5] | 9%nat => [-2; 1] | _ => []
  end.

(** Between two consecutive break points every class is continuous. *)
Lemma trap_continuous_between c s t : (c <= 9)%nat ->
  (forall b, In b (trap_breaks c) -> (s < b <-> t < b) /\ (b < s <-> b < t)) ->
  Rabs (trap_spec c s - trap_spec c t) <= 1 / 4 * Rabs (s - t).
Proof.
  intros Hc HB.
  do 10 (destruct c as [|c];
    [ cbn [trap_breaks In] in HB; unfold trap_spec;
      try (assert (h5 := HB 5 ltac:(tauto)));
      try (assert (hm3 := HB (-3) ltac:(tauto))); try (assert (hm1 := HB (-1) ltac:(tauto)));
      try (assert (hm10 := HB (-10) ltac:(tauto))); try (assert (hm2 := HB (-2) ltac:(tauto)));
      try (assert (h3 := HB 3 ltac:(tauto))); try (assert (h1 := HB 1 ltac:(tauto)));
      clear HB;
      rdec; try absle;
      exfalso; repeat match goal with H : _ /\ _ |- _ => destruct H | H : _ <-> _ |- _ => destruct H end;
      repeat match goal with H : ?p -> _ |- _ => first [specialize (H ltac:(lra)) | clear H] end; lra
    | ]). lia.
Qed.

(** At each break point the value jumps: (value just below, at, just above). *)
Lemma trap_jumps :
  (forall t, t < -3 -> trap_spec 0 t = -1) /\ trap_spec 0 (-3) = 0 /\
  trap_spec 0 (-1) = 1/2 /\ (forall t, -1 < t -> trap_spec 0 t = 1) /\
  (forall t, t < -10 -> trap_spec 1 t = -1) /\ trap_spec 1 (-10) = 0 /\
  trap_spec 1 (-2) = 2/3 /\ (forall t, -2 < t -> trap_spec 1 t = 1) /\
  (forall c, In c [2;3;5;6]%nat -> trap_spec c 5 = 0 /\ forall t, 5 < t -> trap_spec c t = -1) /\
  (forall t, t < -3 \/ 3 < t -> trap_spec 4 t = -1) /\ (forall t, -3 <= t <= 3 -> trap_spec 4 t = 1) /\
  (forall t, t < -2 -> trap_spec 9 t = -1) /\ trap_spec 9 (-2) = 0 /\
  trap_spec 9 1 = 2/3 /\ (forall t, 1 < t -> trap_spec 9 t = 1).
Proof.
  repeat match goal with |- _ /\ _ => split end; intros; unfold trap_spec; try (rdec; fail);
    try solve [rdec].
  simpl In in *.
  decompose [or] H; try contradiction; subst; split; intros; rdec.
Qed.

(** The plateaus, where the documentation wants a constant. *)
Lemma trap_plateaus :
  (forall t, t <= 0 -> trap_spec 2 t = 1) /\ (forall t, t <= 0 -> trap_spec 5 t = 1) /\
  (forall t, t <= -35 -> trap_spec 3 t = 1/2) /\ (forall t, -25 <= t <= 0 -> trap_spec 3 t = 1) /\
  (forall t, t <= -40 -> trap_spec 6 t = 1/2) /\ (forall t, -30 <= t <= 0 -> trap_spec 6 t = 1) /\
  (forall t, t <= -30 -> trap_spec 7 t = 3/10) /\ (forall t, -20 <= t <= 5 -> trap_spec 7 t = 1) /\
  (forall t, 30 <= t -> trap_spec 7 t = -1) /\
  (forall t, t <= -30 \/ 15 <= t -> trap_spec 8 t = 1/5) /\
  (forall t, -20 <= t <= 5 -> trap_spec 8 t = 4/5).
Proof. repeat match goal with |- _ /\ _ => split end; intros; unfold trap_spec; rdec. Qed.

(** *** The same of the function itself *)
Lemma trap_at_value c (xs out : list xr) i t :
  get_hid_traps DFloat c xs = Ok out -> nth_error xs i = Some (Fin t) -> nth_error out i = Some (Fin (trap_spec c t)).
Proof.
  intros E Hi. assert (Hc : (c <= 9)%nat).
  { destruct (Nat.le_gt_cases c 9); auto. rewrite C46_out_of_range in E by lia. discriminate. }
  destruct (C46_values c xs Hc) as (o & E' & _ & H1 & _). assert (o = out) as -> by congruence. auto.
Qed.

(** High-density graupel and hail are continuous (Lipschitz): two temperatures d
    degrees apart get memberships at most 0.08 d apart. *)
Theorem C46_continuous c (xs out : list xr) i j s t : (c = 7 \/ c = 8)%nat ->
  get_hid_traps DFloat c xs = Ok out -> nth_error xs i = Some (Fin s) -> nth_error xs j = Some (Fin t) ->
  exists y z, nth_error out i = Some (Fin y) /\ nth_error out j = Some (Fin z) /\ Rabs (y - z) <= 8 / 100 * Rabs (s - t).
Proof. intros Hc E Hi Hj. do 2 eexists. split; [|split]; [eapply trap_at_value; eauto ..|]. now apply trap_continuous. Qed.

(** Every class: two temperatures with no break point at or between them. *)
Theorem C46_continuous_between c (xs out : list xr) i j s t :
  get_hid_traps DFloat c xs = Ok out -> nth_error xs i = Some (Fin s) -> nth_error xs j = Some (Fin t) ->
  (forall b, In b (trap_breaks c) -> (s < b <-> t < b) /\ (b < s <-> b < t)) ->
  exists y z, nth_error out i = Some (Fin y) /\ nth_error out j = Some (Fin z) /\ Rabs (y - z) <= 1 / 4 * Rabs (s - t).
Proof.
  intros E Hi Hj HB. do 2 eexists. split; [|split]; [eapply trap_at_value; eauto ..|]. apply trap_continuous_between; auto.
  destruct (Nat.le_gt_cases c 9); auto. rewrite C46_out_of_range in E by lia. discriminate.
Qed.

(** class c returns the membership v wherever the temperature is t *)
Definition gives (c : nat) (t v : R) : Prop := forall xs out i,
  get_hid_traps DFloat c xs = Ok out -> nth_error xs i = Some (Fin t) -> nth_error out i = Some (Fin v).
Lemma gives_spec c t v : trap_spec c t = v -> gives c t v.
Proof. intros <- xs out i. apply trap_at_value. Qed.

(** The break points, where the membership jumps. *)
Theorem C46_jumps :
  (* drizzle *) (forall t, t < -3 -> gives 0 t (-1)) /\ gives 0 (-3) 0 /\ gives 0 (-1) (1/2) /\ (forall t, -1 < t -> gives 0 t 1) /\
  (* rain *) (forall t, t < -10 -> gives 1 t (-1)) /\ gives 1 (-10) 0 /\ gives 1 (-2) (2/3) /\ (forall t, -2 < t -> gives 1 t 1) /\
  (* ice crystals, aggregates, vertical ice, low-density graupel *)
  (forall c, In c [2;3;5;6]%nat -> gives c 5 0 /\ forall t, 5 < t -> gives c t (-1)) /\
  (* wet snow *) (forall t, t < -3 \/ 3 < t -> gives 4 t (-1)) /\ (forall t, -3 <= t <= 3 -> gives 4 t 1) /\
  (* big drops *) (forall t, t < -2 -> gives 9 t (-1)) /\ gives 9 (-2) 0 /\ gives 9 1 (2/3) /\ (forall t, 1 < t -> gives 9 t 1).
Proof.
  destruct trap_jumps as (J1 & J2 & J3 & J4 & J5 & J6 & J7 & J8 & J9 & J10 & J11 & J12 & J13 & J14 & J15).
  repeat match goal with |- _ /\ _ => split end; intros; try (apply gives_spec; auto).
  destruct (J9 c H) as (A & B). split; intros; apply gives_spec; auto.
Qed.

(** The plateaus, where the documentation wants a constant. *)
Theorem C46_plateaus :
  (forall t, t <= 0 -> gives 2 t 1) /\ (forall t, t <= 0 -> gives 5 t 1) /\
  (forall t, t <= -35 -> gives 3 t (1/2)) /\ (forall t, -25 <= t <= 0 -> gives 3 t 1) /\
  (forall t, t <= -40 -> gives 6 t (1/2)) /\ (forall t, -30 <= t <= 0 -> gives 6 t 1) /\
  (forall t, t <= -30 -> gives 7 t (3/10)) /\ (forall t, -20 <= t <= 5 -> gives 7 t 1) /\
  (forall t, 30 <= t -> gives 7 t (-1)) /\
  (forall t, t <= -30 \/ 15 <= t -> gives 8 t (1/5)) /\
  (forall t, -20 <= t <= 5 -> gives 8 t (4/5)).
Proof.
  destruct trap_plateaus as (J1 & J2 & J3 & J4 & J5 & J6 & J7 & J8 & J9 & J10 & J11).
  repeat match goal with |- _ /\ _ => split end; intros; apply gives_spec; auto.
Qed.

(** Non-vacuity: the model run on numbers. *)
Example C46_run :
  get_hid_traps DFloat 3 (qs [-40; -30; -10; 2; 5; 6]%Q ++ [None])
  = Ok [Some 0.5; Some (Qmake 3 4); Some 1; Some (Qmake 3 5); Some 0; Some (-1); Some 0]%Q.
Proof. vm_compute. reflexivity. Qed.
