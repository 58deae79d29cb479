(** Law-free facts about the classifiers of Model/Hid.v: the array programs are
    gate-wise.  Everything here holds for every [FloatOps]. *)
From Coq Require Import Lia.
From Verif Require Import Base.Num Base.ListFacts Base.Pointwise.
From Verif Require Import Model.Tables Model.Beta Model.TTraps Model.Hid.
Open Scope fl_scope.

Lemma bind_ok {A B} (x : res A) (k : A -> res B) y :
  bind x k = Ok y -> exists a, x = Ok a /\ k a = Ok y.
Proof. destruct x; simpl; intro; try discriminate; eauto. Qed.

Lemma mapM_ok {A B} (f : A -> res B) l ys : mapM f l = Ok ys ->
  length ys = length l /\
  forall i x, nth_error l i = Some x -> exists y, nth_error ys i = Some y /\ f x = Ok y.
Proof.
  revert ys; induction l as [|x l IH]; simpl; intros ys E.
  - injection E as <-. split; auto. intros [|i] y Hy; discriminate.
  - apply bind_ok in E as (y & Ey & E). apply bind_ok in E as (zs & Ez & E).
    injection E as <-. destruct (IH _ Ez) as (L & G). split; [simpl; congruence|].
    intros [|i] z Hz; simpl in Hz.
    + injection Hz as <-. exists y; auto.
    + destruct (G _ _ Hz) as (w & ? & ?). exists w; auto.
Qed.

Lemma mapM_total {A B} (f : A -> res B) l :
  (forall x, In x l -> exists y, f x = Ok y) -> exists ys, mapM f l = Ok ys.
Proof.
  induction l as [|x l IH]; simpl; intro G; [eauto|].
  destruct (G x (or_introl eq_refl)) as (y & ->). simpl.
  destruct IH as (ys & ->); [auto|]. simpl; eauto.
Qed.

Lemma mapM_ext {A B} (f g : A -> res B) l :
  (forall x, In x l -> f x = g x) -> mapM f l = mapM g l.
Proof.
  induction l as [|x l IH]; simpl; intro G; auto. rewrite (G x) by auto.
  destruct (g x); simpl; auto. rewrite IH by auto. reflexivity.
Qed.

Lemma mapM_fuse {A B C} (f : A -> res B) (g : C -> A) l : mapM f (map g l) = mapM (fun x => f (g x)) l.
Proof. induction l; simpl; auto. destruct (f (g a)); simpl; auto. now rewrite IHl. Qed.

Section G.
Context {F : Type} `{FloatOps F}.

(** ** One gate *)
Definition gate_beta (set : option (bset F)) (c : nat) (x : F) : res F :=
  match set with
  | None => Raise TypeError
  | Some s => a <- idx (sa s) c ;; b <- idx (sb s) c ;; m <- idx (sm s) c ;;
              hid_beta_gate x (f32 a) (f32 b) (f32 m)
  end.

Lemma firstn_nth_error {A} n (l : list A) i :
  (i < n)%nat -> nth_error (firstn n l) i = nth_error l i.
Proof.
  revert l i; induction n; intros l i Hi; [lia|]. destruct l; simpl; [now destruct i|].
  destruct i; simpl; auto. apply IHn; lia.
Qed.

Lemma beta_of_ok sz x set c l : beta_of sz x set c = Ok l ->
  length l = sz /\ (sz <= length x)%nat /\
  forall i v, (i < sz)%nat -> nth_error x i = Some v ->
    exists y, nth_error l i = Some y /\ gate_beta set c v = Ok y.
Proof.
  unfold beta_of, gate_beta. destruct set as [s|]; [|discriminate]. intro E.
  apply bind_ok in E as (a & -> & E). apply bind_ok in E as (b & -> & E).
  apply bind_ok in E as (m & -> & E). unfold hid_beta_f in E.
  destruct (Nat.ltb_spec (length x) sz); [discriminate|].
  apply mapM_ok in E as (L & G). rewrite firstn_length in L. split; [lia|]. split; [lia|].
  intros i v Hi Hv. simpl. apply G. now rewrite firstn_nth_error.
Qed.

Lemma beta_of_total sz x set c : (sz <= length x)%nat ->
  (forall v, exists y, gate_beta set c v = Ok y) -> exists l, beta_of sz x set c = Ok l.
Proof.
  intros L G. unfold beta_of, gate_beta in *. destruct set as [s|].
  - destruct (idx (sa s) c); simpl in *; try (destruct (G fnan); discriminate).
    destruct (idx (sb s) c); simpl in *; try (destruct (G fnan); discriminate).
    destruct (idx (sm s) c); simpl in *; try (destruct (G fnan); discriminate).
    unfold hid_beta_f. destruct (Nat.ltb_spec (length x) sz); [lia|].
    apply mapM_total. intros; apply G.
  - destruct (G fnan); discriminate.
Qed.

(** the value of a field at gate i *)
Definition gv (rd : key -> option (list F)) (i : nat) (k : key) : option F :=
  match rd k with Some x => nth_error x i | None => None end.

Definition gsum (rows : list F) (ws : F) : res F :=
  match rows with [] => Unmodelled | r :: rs => Ok (fnp (fold_left (fun x y => f32 (x + y)) rs r / fnp ws)) end.

Definition gate_calc (v : key -> bool) (w : key -> F) (sets : key -> option (bset F))
  (vl : list key) (ws : F) (c : nat) (g : key -> option F) : res F :=
  rows <- mapM (fun kx : key * F => let '(k, x) := kx in
                  bt <- gate_beta (sets k) c x ;; Ok (f32 (f32 (flag (v k) * w k) * bt)))
               (flat_map (fun k => match g k with Some x => [(k, x)] | None => [] end) vl) ;;
  gsum rows ws.

Definition gate_trap (c : nat) (x : F) : res F :=
  l <- get_hid_traps DFloat c [x] ;; idx l 0.

Definition gate_calc_trap (v : key -> bool) (w : key -> F) (sets : key -> option (bset F))
  (vl : list key) (ws : F) (c : nat) (g : key -> option F) : res F :=
  rows <- mapM (fun kx : key * F => let '(k, x) := kx in
                  match k with
                  | KT => t <- gate_trap c x ;; Ok (f32 t)
                  | _ => bt <- gate_beta (sets k) c x ;; Ok (f32 (f32 (flag (v k) * w k) * bt))
                  end)
               (flat_map (fun k => match g k with Some x => [(k, x)] | None => [] end) vl) ;;
  gsum rows ws.

Lemma fold_map2_len sz : forall (rs : list (list F)) r,
  length r = sz -> (forall x, In x rs -> length x = sz) ->
  length (fold_left (map2 (fun x y => f32 (x + y))) rs r) = sz.
Proof.
  induction rs as [|x rs IH]; simpl; intros r Hr Hrs; auto.
  apply IH; auto. rewrite map2_length, Hr, (Hrs x); auto; lia.
Qed.

(** i-th element of a sum of rows *)
Lemma fold_map2_nth i : forall (rs : list (list F)) r (vs : list F) v,
  nth_error r i = Some v -> Forall2 (fun row y => nth_error row i = Some y) rs vs ->
  nth_error (fold_left (map2 (fun x y => f32 (x + y))) rs r) i = Some (fold_left (fun x y => f32 (x + y)) vs v).
Proof.
  intros rs; induction rs as [|x rs IH]; intros r vs v Hv F2; inversion F2; subst; simpl; auto.
  apply IH; auto. rewrite map2_nth_error, Hv, H2. reflexivity.
Qed.

Lemma vsum_div_ok sz rows ws l : vsum_div rows ws = Ok l ->
  (forall x, In x rows -> length x = sz) ->
  length l = sz /\ forall i vs, Forall2 (fun row y => nth_error row i = Some y) rows vs ->
     exists y, nth_error l i = Some y /\ gsum vs ws = Ok y.
Proof.
  destruct rows as [|r rs]; simpl; [discriminate|]. intros E L. injection E as <-.
  split.
  - rewrite map_length. apply fold_map2_len; auto.
  - intros i vs F2. inversion F2; subst. simpl.
    exists (fnp (fold_left (fun x y => f32 (x + y)) l' y / fnp ws)). split; auto. rewrite map_nth_error'.
    erewrite fold_map2_nth; eauto.
Qed.

(** generic: the two _calculate_test variants *)
Lemma rows_gate {R} (f : key * list F -> res (list R)) (fg : key * F -> res R)
  (rd : key -> option (list F)) sz vl rows :
  (forall k x l, rd k = Some x -> f (k, x) = Ok l -> length l = sz /\ (sz <= length x)%nat /\
     forall i v, (i < sz)%nat -> nth_error x i = Some v ->
       exists y, nth_error l i = Some y /\ fg (k, v) = Ok y) ->
  mapM f (flat_map (fun k => match rd k with Some x => [(k, x)] | None => [] end) vl) = Ok rows ->
  (forall x, In x rows -> length x = sz) /\
  forall i, (i < sz)%nat -> exists vs,
    mapM fg (flat_map (fun k => match gv rd i k with Some x => [(k, x)] | None => [] end) vl) = Ok vs
    /\ Forall2 (fun row y => nth_error row i = Some y) rows vs.
Proof.
  intro Hf. revert rows; induction vl as [|k vl IH]; simpl; intros rows E.
  - injection E as <-. split; [simpl; tauto|]. intros; exists []; auto.
  - unfold gv at 1. destruct (rd k) as [x|] eqn:Ek; simpl in E.
    + apply bind_ok in E as (l & El & E). apply bind_ok in E as (ls & Els & E).
      injection E as <-. destruct (Hf _ _ _ Ek El) as (L & Lx & G).
      destruct (IH _ Els) as (Ls & Gs). split.
      { intros y [<-|Hy]; auto. }
      intros i Hi. destruct (Gs i Hi) as (vs & Ev & F2).
      destruct (nth_error_map_some x (i:=i)) as (v & Hv); [lia|].
      destruct (G i v Hi Hv) as (y & Hy & Ey).
      exists (y :: vs). rewrite Hv. cbn [flat_map app mapM].
      rewrite Ey; cbn [bind]. rewrite Ev; cbn [bind]. split; auto.
    + destruct (IH _ E) as (Ls & Gs). split; auto.
Qed.

Lemma calculate_test_gate v w rd sets vl ws c sz l :
  calculate_test v w rd sets vl ws c sz = Ok l ->
  length l = sz /\ forall i, (i < sz)%nat ->
    exists y, nth_error l i = Some y /\ gate_calc v w sets vl ws c (gv rd i) = Ok y.
Proof.
  unfold calculate_test. intro E. apply bind_ok in E as (rows & Er & E).
  edestruct (rows_gate (fun kx : key * list F => let '(k, x) := kx in
                  bt <- beta_of sz x (sets k) c ;;
                  Ok (map (fun y => f32 (f32 (flag (v k) * w k) * y)) bt))
    (fun kx : key * F => let '(k, x) := kx in
                  bt <- gate_beta (sets k) c x ;; Ok (f32 (f32 (flag (v k) * w k) * bt))) rd sz) as (L & G);
    [|exact Er|].
  - intros k x l' Hx E'. cbv beta iota in E'. apply bind_ok in E' as (bt & Eb & E').
    injection E' as <-. apply beta_of_ok in Eb as (Lb & Lx & Gb).
    rewrite map_length. split; auto. split; auto. intros i y Hi Hy.
    destruct (Gb i y Hi Hy) as (z & Hz & Ez). rewrite Ez. cbn [bind].
    eexists; split; [|reflexivity]. rewrite map_nth_error', Hz. reflexivity.
  - destruct (vsum_div_ok sz _ _ _ E L) as (Ll & Gl). split; auto.
    intros i Hi. destruct (G i Hi) as (vs & Ev & F2).
    destruct (Gl i vs F2) as (y & Hy & Ey). exists y. split; auto.
    unfold gate_calc. rewrite Ev. exact Ey.
Qed.

Lemma trap_gate c x l : get_hid_traps DFloat c x = Ok l ->
  length l = length x /\ forall i v, nth_error x i = Some v ->
    exists y, nth_error l i = Some y /\ gate_trap c v = Ok y.
Proof.
  intro E. unfold gate_trap.
  do 10 (destruct c as [|c];
    [ injection E as <-; split;
      [ unfold t_trap_dz, t_trap_rain, t_trap_ic, t_trap_agg, t_trap_ws, t_trap_ldg, t_trap_hdg,
         t_trap_ha, t_trap_bd, setc, setv, win, wle, wge; pwlen
      | intros i v Hv; eexists; split; [|reflexivity];
        unfold t_trap_dz, t_trap_rain, t_trap_ic, t_trap_agg, t_trap_ws, t_trap_ldg, t_trap_hdg,
          t_trap_ha, t_trap_bd, setc, setv, win, wle, wge;
        etransitivity; [solve [pw]|]; reflexivity ] |]).
  discriminate.
Qed.

Lemma calculate_test_trap_gate v w rd sets vl ws c sz l :
  calculate_test_trap v w rd sets vl ws c sz = Ok l ->
  length l = sz /\ forall i, (i < sz)%nat ->
    exists y, nth_error l i = Some y /\ gate_calc_trap v w sets vl ws c (gv rd i) = Ok y.
Proof.
  unfold calculate_test_trap. intro E. apply bind_ok in E as (rows & Er & E).
  match type of Er with mapM ?f _ = _ => set (ff := f) in * end.
  edestruct (rows_gate ff
    (fun kx : key * F => let '(k, x) := kx in
       match k with
       | KT => t <- gate_trap c x ;; Ok (f32 t)
       | _ => bt <- gate_beta (sets k) c x ;; Ok (f32 (f32 (flag (v k) * w k) * bt)) end) rd sz) as (L & G);
    [|exact Er|].
  - intros k x l' Hx E'. unfold ff in E'.
    assert (K : (k <> KT) \/ k = KT) by (destruct k; auto; left; discriminate).
    destruct K as [K|K].
    + assert (E'' : (bt <- beta_of sz x (sets k) c ;;
                  Ok (map (fun y => f32 (f32 (flag (v k) * w k) * y)) bt)) = Ok l')
        by (destruct k; auto; contradiction).
      clear E'. apply bind_ok in E'' as (bt & Eb & E').
      injection E' as <-. apply beta_of_ok in Eb as (Lb & Lx & Gb).
      rewrite map_length. split; auto. split; auto. intros i y Hi Hy.
      destruct (Gb i y Hi Hy) as (z & Hz & Ez).
      exists (f32 (f32 (flag (v k) * w k) * z)). split.
      * rewrite map_nth_error', Hz. reflexivity.
      * destruct k; try contradiction; rewrite Ez; reflexivity.
    + subst k. destruct (Nat.eqb_spec (length x) sz) as [Lx|]; [|discriminate].
      apply bind_ok in E' as (tr & Et & E'). injection E' as <-.
      apply trap_gate in Et as (Lt & Gt). rewrite map_length. split; [lia|]. split; [lia|].
      intros i y Hi Hy. destruct (Gt i y Hy) as (z & Hz & Ez). exists (f32 z).
      rewrite map_nth_error', Hz, Ez. split; reflexivity.
  - destruct (vsum_div_ok sz _ _ _ E L) as (Ll & Gl). split; auto.
    intros i Hi. destruct (G i Hi) as (vs & Ev & F2).
    destruct (Gl i vs F2) as (y & Hy & Ey). exists y. split; auto.
    unfold gate_calc_trap. rewrite Ev. exact Ey.
Qed.

(** ** _get_test_list is a map over the classes *)
Definition one_row (hybrid pol use_temp : bool) (calc bT bZ : nat -> res (list F)) (c : nat)
  : res (list F) :=
  if hybrid then
    if pol then
      t <- calc c ;;
      if use_temp then b <- bT c ;; z <- bZ c ;;
        Ok (map2 (fun x y => fnp (x * y)) (map2 (fun x y => fnp (x * y)) t b) z)
      else z <- bZ c ;; Ok (map2 (fun x y => fnp (x * y)) t z)
    else if use_temp then b <- bT c ;; z <- bZ c ;; Ok (map2 (fun x y => f32 (x * y)) b z)
    else bZ c
  else calc c.

Definition gate_row (hybrid pol use_temp : bool) (calc bT bZ : nat -> res F) (c : nat) : res F :=
  if hybrid then
    if pol then
      t <- calc c ;;
      if use_temp then b <- bT c ;; z <- bZ c ;; Ok (fnp (fnp (t * b) * z))
      else z <- bZ c ;; Ok (fnp (t * z))
    else if use_temp then b <- bT c ;; z <- bZ c ;; Ok (f32 (b * z))
    else bZ c
  else calc c.

Lemma test_body_row hybrid linear pol use_temp calc bT bZ c test :
  hybrid = true \/ (linear = true /\ pol = true) ->
  test_body hybrid linear pol use_temp true calc bT bZ c test
  = (t <- one_row hybrid pol use_temp calc bT bZ c ;; Ok (Some t)).
Proof.
  unfold test_body, one_row. intros [-> | [-> ->]].
  - destruct pol, use_temp; cbn [bind orb]; repeat (match goal with
      |- context [bind (?f c) _] => destruct (f c); cbn [bind] end); auto.
  - destruct hybrid; cbn [bind orb]; auto. destruct use_temp; cbn [bind orb];
      repeat (match goal with
      |- context [bind (?f c) _] => destruct (f c); cbn [bind] end); auto.
Qed.

Lemma get_test_list_map hybrid linear pol use_temp calc bT bZ classes :
  hybrid = true \/ (linear = true /\ pol = true) ->
  get_test_list hybrid linear pol use_temp true calc bT bZ classes
  = mapM (one_row hybrid pol use_temp calc bT bZ) classes.
Proof.
  intro Hm. unfold get_test_list.
  set (body := fun c (st : option (list F) * list (list F)) => _).
  assert (G : forall t acc, (st <- forM classes body (t, acc) ;; Ok (snd st))
    = (rs <- mapM (one_row hybrid pol use_temp calc bT bZ) classes ;; Ok (acc ++ rs))).
  { induction classes as [|c cl IH]; intros t acc.
    - simpl. now rewrite app_nil_r.
    - cbn [forM mapM]. unfold body at 1. rewrite test_body_row by auto.
      destruct (one_row hybrid pol use_temp calc bT bZ c) as [r| | | |]; cbn [bind]; auto.
      rewrite IH. destruct (mapM _ cl); cbn [bind]; auto. now rewrite <- app_assoc. }
  rewrite G. destruct (mapM _ classes); reflexivity.
Qed.

Lemma get_test_list_unbound linear use_temp dzf calc bT bZ c classes :
  get_test_list false linear false use_temp dzf calc bT bZ (c :: classes)
  = Raise UnboundLocalError.
Proof. unfold get_test_list, test_body. simpl. destruct linear; reflexivity. Qed.

(** rows of equal length, flattened *)
Lemma concat_nth {A} sz : forall (rows : list (list A)) c i row,
  (forall r, In r rows -> length r = sz) -> nth_error rows c = Some row -> (i < sz)%nat ->
  nth_error (concat rows) (c * sz + i) = nth_error row i.
Proof.
  induction rows as [|r rows IH]; intros c i row L Hc Hi; [destruct c; discriminate|].
  destruct c as [|c]; simpl in *.
  - injection Hc as <-. apply nth_error_app1. rewrite (L r); auto.
  - rewrite nth_error_app2; rewrite (L r) by auto; [|lia].
    replace (sz + c * sz + i - sz)%nat with (c * sz + i)%nat by lia. apply IH; auto.
Qed.

Lemma concat_length {A} sz : forall (rows : list (list A)),
  (forall r, In r rows -> length r = sz) -> length (concat rows) = (length rows * sz)%nat.
Proof.
  induction rows as [|r rows IH]; intros L; simpl; auto.
  rewrite app_length, IH, (L r); auto; [now left|]. intros; apply L; now right.
Qed.

(** ** The common core of the three classifiers, gate by gate *)
Lemma core_rows hybrid pol use_temp calc bT bZ (gcalc gT gZ : nat -> nat -> res F) sz classes rows :
  (forall c l, calc c = Ok l -> length l = sz /\ forall i, (i < sz)%nat ->
     exists y, nth_error l i = Some y /\ gcalc i c = Ok y) ->
  (forall c l, bT c = Ok l -> length l = sz /\ forall i, (i < sz)%nat ->
     exists y, nth_error l i = Some y /\ gT i c = Ok y) ->
  (forall c l, bZ c = Ok l -> length l = sz /\ forall i, (i < sz)%nat ->
     exists y, nth_error l i = Some y /\ gZ i c = Ok y) ->
  mapM (one_row hybrid pol use_temp calc bT bZ) classes = Ok rows ->
  length rows = length classes /\ (forall r, In r rows -> length r = sz) /\
  forall j c i, nth_error classes j = Some c -> (i < sz)%nat ->
    exists y, nth_error (concat rows) (j * sz + i) = Some y /\
      gate_row hybrid pol use_temp (gcalc i) (gT i) (gZ i) c = Ok y.
Proof.
  intros Hc HT HZ E. apply mapM_ok in E as (L & G).
  assert (R : forall c l, one_row hybrid pol use_temp calc bT bZ c = Ok l ->
     length l = sz /\ forall i, (i < sz)%nat ->
     exists y, nth_error l i = Some y /\
       gate_row hybrid pol use_temp (gcalc i) (gT i) (gZ i) c = Ok y).
  { intros c l. unfold one_row, gate_row. destruct hybrid; [|apply Hc].
    destruct pol.
    - intro E. apply bind_ok in E as (t & Et & E). destruct (Hc _ _ Et) as (Lt & Gt).
      destruct use_temp.
      + apply bind_ok in E as (b & Eb & E). apply bind_ok in E as (z & Ez & E).
        injection E as <-. destruct (HT _ _ Eb) as (Lb & Gb), (HZ _ _ Ez) as (Lz & Gz).
        split; [now repeat apply len_map2|]. intros i Hi.
        destruct (Gt i Hi) as (y1 & N1 & E1), (Gb i Hi) as (y2 & N2 & E2), (Gz i Hi) as (y3 & N3 & E3).
        exists (fnp (fnp (y1 * y2) * y3)). rewrite E1, E2, E3. split; [etransitivity; [solve [pw]|]; reflexivity|reflexivity].
      + apply bind_ok in E as (z & Ez & E).
        injection E as <-. destruct (HZ _ _ Ez) as (Lz & Gz).
        split; [now repeat apply len_map2|]. intros i Hi.
        destruct (Gt i Hi) as (y1 & N1 & E1), (Gz i Hi) as (y3 & N3 & E3).
        exists (fnp (y1 * y3)). rewrite E1, E3. split; [etransitivity; [solve [pw]|]; reflexivity|reflexivity].
    - destruct use_temp; [|apply HZ]. intro E.
      apply bind_ok in E as (b & Eb & E). apply bind_ok in E as (z & Ez & E).
      injection E as <-. destruct (HT _ _ Eb) as (Lb & Gb), (HZ _ _ Ez) as (Lz & Gz).
      split; [now repeat apply len_map2|]. intros i Hi.
      destruct (Gb i Hi) as (y2 & N2 & E2), (Gz i Hi) as (y3 & N3 & E3).
      exists (f32 (y2 * y3)). rewrite E2, E3. split; [etransitivity; [solve [pw]|]; reflexivity|reflexivity]. }
  assert (Lr : forall r, In r rows -> length r = sz).
  { intros r Hr. apply In_nth_error in Hr as (j & Hj).
    destruct (nth_error_map_some classes (i:=j)) as (c & Hcj).
    { apply nth_error_lt in Hj. lia. }
    destruct (G _ _ Hcj) as (y & Hy & Ey). assert (y = r) as -> by congruence.
    now apply R in Ey as (? & _). }
  split; auto. split; auto. intros j c i Hj Hi.
  destruct (G _ _ Hj) as (row & Hr & Er). destruct (R _ _ Er) as (_ & Rg).
  destruct (Rg i Hi) as (y & Hy & Ey). exists y. split; auto.
  erewrite concat_nth; eauto.
Qed.

End G.
