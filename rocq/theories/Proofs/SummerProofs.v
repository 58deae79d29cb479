(** csu_fhc_summer gate by gate (law-free), and its argmax. *)
From Coq Require Import Lia Arith.
From Verif Require Import Base.Num Base.ListFacts Base.Pointwise.
From Verif Require Import Model.Tables Model.Beta Model.TTraps Model.Hid.
From Verif Require Import Spec.HidSpec Proofs.HidProofs.
Open Scope fl_scope.

Lemma dz_set_len F (fo : FloatOps F) s ut tf bd :
  (match get_sets s ut tf bd KDZ with Some x => length (sm x) | None => 0%nat end)
  = length (csv s bd KDZ).
Proof. simpl. now rewrite map_length. Qed.

Lemma csv_len s bd : length (csv s bd KDZ) = match s with Summer => 10 | Winter => 6 | Melt => 2 end%nat.
Proof. destruct s, bd; reflexivity. Qed.

Lemma mapM_inv {A B} (f : A -> res B) l ys : mapM f l = Ok ys -> Forall2 (fun x y => f x = Ok y) l ys.
Proof.
  revert ys; induction l as [|x l IH]; simpl; intros ys E.
  - injection E as <-; auto.
  - apply bind_ok in E as (y & Ey & E). apply bind_ok in E as (zs & Ez & E).
    injection E as <-. auto.
Qed.

Lemma seq_nth_error n i : (i < n)%nat -> nth_error (seq 0 n) i = Some i.
Proof.
  intro L. rewrite (nth_error_nth' _ 0%nat) by now rewrite seq_length. now rewrite seq_nth by auto.
Qed.

Section S.
Context {F : Type} `{FloatOps F}.

Lemma gv_at (a : fields F) i k :
  gv (radar_data a) i k = option_map f32 (at_gate (a k) i).
Proof.
  unfold gv, radar_data, at_gate. destruct (a k); simpl; auto.
  - destruct i; auto. destruct i; auto.
  - apply map_nth_error'.
Qed.

Lemma size_eq (a : fields F) : dz_size a = size (a KDZ).
Proof. unfold dz_size, size. destruct (a KDZ); auto. Qed.

Lemma shape_eq (a : fields F) : dz_shape a = shape (a KDZ).
Proof. unfold dz_shape, shape. destruct (a KDZ); auto. Qed.

(** the score of class c at one gate, from the gate's values only *)
Definition summer_gate (present : key -> bool) (use_temp : bool) (weights : key -> F)
  (method : string) (use_trap : bool) (tf : F) (bd : band) (g : key -> option F) (c : nat) : res F :=
  let ut := if present KT then use_temp else false in
  let sets := get_sets Summer ut tf bd in
  let pol := get_pol_flag present in
  let v k := match k with KT => (present KT && ut)%bool | _ => present k end in
  match varlist method with
  | None => PyNone
  | Some vl =>
      let ws := weight_sum v weights vl in
      let gb k c := match g k with Some x => gate_beta (sets k) c x | None => Raise ValueError end in
      gate_row (contains "hybrid" method) pol ut
        (fun c => if use_trap then gate_calc_trap v weights sets vl ws c g
                  else gate_calc v weights sets vl ws c g) (gb KT) (gb KDZ) c
  end.

Lemma beta_gate_sets (rd : key -> option (list F)) sz (sets : key -> option (bset F)) k c l :
  match rd k with Some x => beta_of sz x (sets k) c | None => Raise ValueError end = Ok l ->
  length l = sz /\ forall i, (i < sz)%nat ->
   exists y, nth_error l i = Some y /\
     match gv rd i k with Some x => gate_beta (sets k) c x | None => Raise ValueError end = Ok y.
Proof.
  unfold gv. destruct (rd k) as [x|]; [|discriminate]. intro E.
  apply beta_of_ok in E as (L & Lx & G). split; auto. intros i Hi.
  destruct (nth_error_map_some x (i:=i)) as (v & Hv); [lia|]. rewrite Hv. eauto.
Qed.

(** ** Shape and contents of the score array *)
Lemma summer_scores ut w method a trap n tf bd sh mu :
  csu_fhc_summer ut w method a trap n tf bd true = Ok (Scores sh mu) ->
  sh = n :: shape (a KDZ) /\ length mu = (n * prod (shape (a KDZ)))%nat /\
  length mu = (10 * size (a KDZ))%nat /\
  (forall c i, (c < 10)%nat -> (i < size (a KDZ))%nat ->
    exists y, nth_error mu (c * size (a KDZ) + i) = Some y /\
      summer_gate (fun k => supplied (a k)) ut w method trap tf bd
        (fun k => option_map f32 (at_gate (a k) i)) c = Ok y).
Proof.
  unfold csu_fhc_summer. intro E.
  destruct (fhc_vars a KDZ) eqn:Edz; [|discriminate]. cbn [negb] in E.
  set (ut' := if fhc_vars a KT then ut else false) in *.
  unfold summer_gate. destruct (varlist method) as [vl|] eqn:Evl; [|discriminate].
  rewrite dz_set_len, csv_len in E.
  match type of E with context [get_test_list ?h ?l ?p _ ?d ?cc ?bt ?bz _] =>
    set (hyb := h) in *; set (lin := l) in *; set (pol := p) in *; set (calc := cc) in *;
    set (bT := bt) in *; set (bZ := bz) in * end.
  assert (Hm : hyb = true \/ (lin = true /\ pol = true)).
  { destruct hyb eqn:Eh; [now left|]. destruct pol eqn:Ep.
    - right. split; auto. unfold varlist in Evl. fold hyb lin in Evl. rewrite Eh in Evl.
      destruct lin; [auto|discriminate].
    - exfalso. change (seq 0 10) with (0%nat :: seq 1 9) in E.
      rewrite get_test_list_unbound in E. discriminate. }
  apply bind_ok in E as (rows & Er & E).
  unfold used_vars at 1 in Er. rewrite Edz in Er. rewrite get_test_list_map in Er by auto.
  cbv zeta in E. destruct (Nat.eqb_spec (length (concat rows)) (n * prod (dz_shape a))) as [Lm|];
    [|discriminate]. cbn [negb] in E. injection E as <- <-.
  assert (Hpres : forall k, fhc_vars a k = supplied (a k)) by reflexivity.
  rewrite <- size_eq.
  destruct (core_rows hyb pol ut' calc bT bZ
     (fun i c => if trap then gate_calc_trap (used_vars a ut') w (get_sets Summer ut' tf bd) vl
            (weight_sum (used_vars a ut') w vl) c (gv (radar_data a) i)
          else gate_calc (used_vars a ut') w (get_sets Summer ut' tf bd) vl
            (weight_sum (used_vars a ut') w vl) c (gv (radar_data a) i))
     (fun i c => match gv (radar_data a) i KT with Some x => gate_beta (get_sets Summer ut' tf bd KT) c x
                 | None => Raise ValueError end)
     (fun i c => match gv (radar_data a) i KDZ with Some x => gate_beta (get_sets Summer ut' tf bd KDZ) c x
                 | None => Raise ValueError end)
     (dz_size a) (seq 0 10) rows) as (L & Lr & G); auto.
  - unfold calc. destruct trap; intros c l El.
    + now apply calculate_test_trap_gate in El.
    + now apply calculate_test_gate in El.
  - intros c l El. now apply beta_gate_sets in El.
  - intros c l El. now apply beta_gate_sets in El.
  - split; [now rewrite <- shape_eq|]. split; [now rewrite <- shape_eq|].
    + split; [rewrite (concat_length (dz_size a)) by auto; rewrite L, seq_length; lia|].
      intros c i Hc Hi. destruct (G c c i) as (y & Hy & Ey); auto using seq_nth_error.
      exists y. split; auto. rewrite <- Ey. clear Ey.
      change (supplied (a KT)) with (fhc_vars a KT). fold ut'.
      change (get_pol_flag (fun k => supplied (a k))) with pol. fold hyb.
      assert (Gx : forall k, gv (radar_data a) i k = option_map f32 (at_gate (a k) i)) by (intro; apply gv_at).
      assert (Vx : forall k, used_vars a ut' k =
         match k with KT => (fhc_vars a KT && ut')%bool | _ => supplied (a k) end) by (intros []; reflexivity).
      assert (Ws : weight_sum (used_vars a ut') w vl = weight_sum
         (fun k => match k with KT => (fhc_vars a KT && ut')%bool | _ => supplied (a k) end) w vl).
      { unfold weight_sum. apply f_equal, map_ext. intros []; reflexivity. }
      assert (Fm : forall l, flat_map (fun k => match gv (radar_data a) i k with Some x => [(k, x)] | None => [] end) l
        = flat_map (fun k => match option_map f32 (at_gate (a k) i) with Some x => [(k, x)] | None => [] end) l).
      { intro l. induction l as [|k l IHl]; simpl; auto. now rewrite Gx, IHl. }
      rewrite !Gx. unfold gate_row. rewrite Ws.
      assert (C1 : forall c, gate_calc (used_vars a ut') w (get_sets Summer ut' tf bd) vl
         (weight_sum (fun k => match k with KT => (fhc_vars a KT && ut')%bool | _ => supplied (a k) end) w vl) c (gv (radar_data a) i)
        = gate_calc (fun k => match k with KT => (fhc_vars a KT && ut')%bool | _ => supplied (a k) end) w (get_sets Summer ut' tf bd) vl
         (weight_sum (fun k => match k with KT => (fhc_vars a KT && ut')%bool | _ => supplied (a k) end) w vl) c
         (fun k => option_map f32 (at_gate (a k) i))).
      { intro. unfold gate_calc. rewrite Fm. reflexivity. }
      assert (C2 : forall c, gate_calc_trap (used_vars a ut') w (get_sets Summer ut' tf bd) vl
         (weight_sum (fun k => match k with KT => (fhc_vars a KT && ut')%bool | _ => supplied (a k) end) w vl) c (gv (radar_data a) i)
        = gate_calc_trap (fun k => match k with KT => (fhc_vars a KT && ut')%bool | _ => supplied (a k) end) w (get_sets Summer ut' tf bd) vl
         (weight_sum (fun k => match k with KT => (fhc_vars a KT && ut')%bool | _ => supplied (a k) end) w vl) c
         (fun k => option_map f32 (at_gate (a k) i))).
      { intro. unfold gate_calc_trap. rewrite Fm. reflexivity. }
      rewrite C1, C2. reflexivity.
Qed.

(** scores and classes come from the same array *)
Lemma summer_classes ut w method a trap n tf bd :
  csu_fhc_summer ut w method a trap n tf bd false =
  match csu_fhc_summer ut w method a trap n tf bd true with
  | Ok (Scores _ mu) => hid <- argmax0 n (size (a KDZ)) mu ;; Ok (Classes (shape (a KDZ)) (map S hid))
  | Ok (Classes _ _) => Unmodelled
  | PyNone => PyNone | Raise e => Raise e | Fault => Fault | Unmodelled => Unmodelled
  end.
Proof.
  unfold csu_fhc_summer. destruct (negb (fhc_vars a KDZ)); auto.
  destruct (varlist method); auto. destruct (get_test_list _ _ _ _ _ _ _ _ _); cbn [bind]; auto.
  cbv zeta. destruct (negb _); auto.
Qed.

(** ** argmax *)
Lemma np_argmax_from_lt (l : list F) : forall best bi i, (bi < i)%nat ->
  (np_argmax_from best bi i l < i + length l)%nat.
Proof.
  induction l as [|x l IH]; intros best bi i Hb; simpl; [lia|].
  destruct (fisnan best); [lia|]. destruct (x <=? best).
  - specialize (IH best bi (S i)). lia.
  - specialize (IH x i (S i)). lia.
Qed.
Lemma np_argmax_lt (l : list F) k : np_argmax l = Ok k -> (k < length l)%nat.
Proof.
  destruct l as [|x l]; [discriminate|]. intro E. injection E as <-.
  pose proof (np_argmax_from_lt l x 0%nat 1%nat). simpl; lia.
Qed.
Lemma np_argmax_total (l : list F) : l <> [] -> exists k, np_argmax l = Ok k.
Proof. destruct l; [contradiction|]. simpl; eauto. Qed.
Lemma np_argmax_nan0 (x : F) l : fisnan x = true -> np_argmax (x :: l) = Ok 0%nat.
Proof. intro E. simpl. destruct l; simpl; auto. now rewrite E. Qed.

Lemma argmax0_ok n sz (mu : list F) : (n <> 0)%nat ->
  exists hid, argmax0 n sz mu = Ok hid /\ length hid = sz /\
    forall i, (i < sz)%nat -> exists k, nth_error hid i = Some k /\ (k < n)%nat /\
      np_argmax (column n sz mu i) = Ok k.
Proof.
  intro Hn. unfold argmax0. destruct (Nat.eqb_spec n 0); [contradiction|].
  destruct (mapM_total (fun i => np_argmax (column n sz mu i)) (seq 0 sz)) as (hid & E).
  { intros i _. apply np_argmax_total. unfold column. destruct n; [contradiction|discriminate]. }
  exists hid. split; auto. apply mapM_ok in E as (L & G). rewrite seq_length in L. split; auto.
  intros i Hi. destruct (G i i) as (k & Hk & Ek); auto using seq_nth_error.
  exists k. split; auto. split; auto. apply np_argmax_lt in Ek. unfold column in Ek.
  now rewrite map_length, seq_length in Ek.
Qed.

Lemma column_nth n sz (mu : list F) i c : (c < n)%nat ->
  nth_error (column n sz mu i) c = Some (nth (c * sz + i) mu fnan).
Proof. intro Hc. unfold column. rewrite map_nth_error', seq_nth_error; auto. Qed.
Lemma column_len n sz (mu : list F) i : length (column n sz mu i) = n.
Proof. unfold column. now rewrite map_length, seq_length. Qed.

(** a well-formed dz array forces n_types = 10 (unless it is empty) *)
Lemma summer_ntypes ut w method a trap n tf bd sh mu :
  csu_fhc_summer ut w method a trap n tf bd true = Ok (Scores sh mu) ->
  field_ok (a KDZ) -> size (a KDZ) <> 0%nat -> n = 10%nat.
Proof.
  intros E Hok Hsz. apply summer_scores in E as (_ & L1 & L2 & _).
  assert (P : prod (shape (a KDZ)) = size (a KDZ)).
  { unfold field_ok, shape, size, arr_ok in *. destruct (a KDZ); auto. }
  rewrite P in L1. rewrite L1 in L2. now apply Nat.mul_cancel_r in L2.
Qed.

End S.
