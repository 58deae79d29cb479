(** * C100: the weights of the classifiers *)
From Coq Require Import Reals Lra Lia Qreals Arith.
From Verif Require Import Base.Num Base.ListFacts Base.XReal Base.XTac Base.Pointwise Base.XArith Base.QOps.
From Verif Require Import Model.Tables Model.Beta Model.TTraps Model.Hid Model.Weights.
From Verif Require Import Spec.HidSpec.
From Verif Require Import Proofs.HidProofs Proofs.BetaProofs Proofs.SummerProofs Proofs.SummerReal Proofs.CoreProofs.
From Verif Require Import Properties.P09_SummerScores.

(** the variables whose weight a method reads *)
Definition weighted (method : string) : list key :=
  if contains "hybrid" method then pol_keys else all_keys.
Definition known (method : string) : Prop :=
  contains "hybrid" method = true \/ contains "linear" method = true.

Lemma varlist_known method : known method -> varlist method = Some (weighted method).
Proof.
  unfold known, varlist, weighted. destruct (contains "hybrid" method); auto.
  intros [?| ->]; [discriminate|reflexivity].
Qed.
Lemma varlist_some method vl : varlist method = Some vl -> vl = weighted method.
Proof.
  unfold varlist, weighted. destruct (contains "hybrid" method); [|destruct (contains "linear" method)]; intro E;
    [injection E as <-; reflexivity..|discriminate].
Qed.

(** ** Which weights matter at all (any arithmetic) *)
Section Lawfree.
Context {F : Type} {fo : FloatOps F}.

Lemma forM_ext' {A S} (l : list A) (f g : A -> S -> res S) s : (forall x t, In x l -> f x t = g x t) -> forM l f s = forM l g s.
Proof.
  revert s. induction l as [|x l IH]; intros s E; cbn [forM]; auto. rewrite E by (left; auto).
  destruct (g x s); cbn [bind]; auto. apply IH. intros. apply E. now right.
Qed.
Lemma gtl_ext h l p u d (calc calc' bT bZ : nat -> res (list F)) cs : (forall c, calc c = calc' c) ->
  get_test_list h l p u d calc bT bZ cs = get_test_list h l p u d calc' bT bZ cs.
Proof.
  intro E. unfold get_test_list. f_equal. apply forM_ext'. intros c (t, acc) _. unfold test_body. now rewrite !E.
Qed.
Lemma ws_eq v (w w' : key -> F) vl : (forall k, In k vl -> w k = w' k) -> weight_sum v w vl = weight_sum v w' vl.
Proof. intro E. unfold weight_sum. f_equal. apply map_ext_in. intros k Hk. now rewrite E. Qed.
Lemma in_flat_key {A} (rd : key -> option A) vl k x :
  In (k, x) (flat_map (fun k => match rd k with Some x => [(k, x)] | None => [] end) vl) -> In k vl.
Proof.
  intro I. apply in_flat_map in I as (k' & Hk & I). destruct (rd k'); [|contradiction].
  destruct I as [I|[]]. now injection I as <- _.
Qed.
Lemma ct_eq v (w w' : key -> F) rd sets vl ws c sz : (forall k, In k vl -> w k = w' k) ->
  calculate_test v w rd sets vl ws c sz = calculate_test v w' rd sets vl ws c sz.
Proof.
  intro E. unfold calculate_test. f_equal. apply mapM_ext. intros (k, x) I. apply in_flat_key in I. now rewrite E.
Qed.
Lemma ctt_eq v (w w' : key -> F) rd sets vl ws c sz : (forall k, In k vl -> w k = w' k) ->
  calculate_test_trap v w rd sets vl ws c sz = calculate_test_trap v w' rd sets vl ws c sz.
Proof.
  intro E. unfold calculate_test_trap. f_equal. apply mapM_ext. intros (k, x) I. apply in_flat_key in I. now rewrite E.
Qed.

(** "hybrid" reads the weights of the four polarimetric variables only *)
Theorem C100_summer_weights_read ut (w w' : key -> F) method (a : fields F) trap n tf bd rs :
  (forall k, In k (weighted method) -> w k = w' k) ->
  csu_fhc_summer ut w method a trap n tf bd rs = csu_fhc_summer ut w' method a trap n tf bd rs.
Proof.
  intro E. unfold csu_fhc_summer. destruct (negb _); auto. destruct (varlist method) as [vl|] eqn:Ev; auto.
  apply varlist_some in Ev. subst vl. cbv zeta. rewrite (ws_eq _ w w') by auto.
  match goal with |- bind ?x _ = bind ?y _ => assert (x = y) as -> end; auto.
  apply gtl_ext. intro c. destruct trap; [now apply ctt_eq|now apply ct_eq].
Qed.
Theorem C100_winter_weights_read ut (w w' : key -> nat -> F) method (a : fields F) tf warm bd :
  (forall k c, In k (weighted method) -> (c < 6)%nat -> w k c = w' k c) ->
  csu_fhc_winter ut w method a tf warm bd = csu_fhc_winter ut w' method a tf warm bd.
Proof.
  intro E. unfold csu_fhc_winter. destruct (negb _); auto. destruct (varlist method) as [vl|] eqn:Ev; auto.
  apply varlist_some in Ev. subst vl. cbv zeta.
  match goal with |- bind ?x _ = bind ?y _ => assert (x = y) as -> end; auto.
  unfold get_test_list. f_equal. apply forM_ext'. intros c (t, acc) Hc.
  assert (c < 6)%nat by (destruct warm; cbn in Hc; lia).
  unfold test_body.
  rewrite (ws_eq _ (fun k => w k c) (fun k => w' k c)), (ct_eq _ (fun k => w k c) (fun k => w' k c)) by auto. reflexivity.
Qed.
Theorem C100_melt_weights_read ut (w w' : key -> nat -> F) method (a : fields F) n tf bd :
  (forall k c, In k (weighted method) -> (c < 2)%nat -> w k c = w' k c) ->
  csu_fhc_cold_newml1 ut w method a n tf bd = csu_fhc_cold_newml1 ut w' method a n tf bd.
Proof.
  intro E. unfold csu_fhc_cold_newml1. destruct (negb _); auto. destruct (varlist method) as [vl|] eqn:Ev; auto.
  apply varlist_some in Ev. subst vl. cbv zeta. rewrite !dz_set_len, csv_len.
  match goal with |- bind ?x _ = bind ?y _ => assert (x = y) as -> end; auto.
  unfold get_test_list. f_equal. apply forM_ext'. intros c (t, acc) Hc. apply in_seq in Hc.
  unfold test_body.
  rewrite (ws_eq _ (fun k => w k c) (fun k => w' k c)), (ct_eq _ (fun k => w k c) (fun k => w' k c)) by (intros; apply E; auto; lia).
  reflexivity.
Qed.

(** ** The dictionary *)
Lemma mapM_get {A} (d : key -> option A) l : (forall k, In k l -> d k <> None) -> exists ws, mapM (dict_get d) l = Ok ws.
Proof.
  intro E. apply mapM_total. intros k Hk. specialize (E k Hk). unfold dict_get. destruct (d k); [eauto|contradiction].
Qed.
Lemma mapM_miss {A} (d : key -> option A) l k : In k l -> d k = None -> mapM (dict_get d) l = Raise KeyError.
Proof.
  intros I N. induction l as [|k' l IH]; [contradiction|]. cbn [mapM]. unfold dict_get at 1.
  destruct (d k') eqn:E; auto. cbn [bind]. destruct I as [->|I]; [congruence|]. now rewrite IH.
Qed.

(** every weight the method reads must be there, whether or not that variable
    was measured; the others need not be *)
Theorem C100_summer_missing_weight ut (d : key -> option F) method (a : fields F) trap n tf bd rs k :
  supplied (a KDZ) = true -> known method -> In k (weighted method) -> d k = None ->
  summer_dict ut d method a trap n tf bd rs = Raise KeyError.
Proof.
  intros Z K I N. unfold summer_dict. change (fhc_vars a KDZ) with (supplied (a KDZ)). rewrite Z, varlist_known by auto.
  cbn [negb]. now rewrite (mapM_miss d _ k).
Qed.
Theorem C100_summer_dictionary ut (d : key -> option F) w method (a : fields F) trap n tf bd rs :
  (forall k, In k (weighted method) -> d k = Some (w k)) ->
  summer_dict ut d method a trap n tf bd rs = csu_fhc_summer ut w method a trap n tf bd rs.
Proof.
  intro E. unfold summer_dict.
  destruct (negb (fhc_vars a KDZ)) eqn:Z; [unfold csu_fhc_summer; now rewrite Z|].
  destruct (varlist method) as [vl|] eqn:Ev; [|unfold csu_fhc_summer; now rewrite Z, Ev].
  apply varlist_some in Ev. subst vl.
  destruct (mapM_get d (weighted method)) as (ws & ->). { intros k Hk. rewrite E by auto. discriminate. }
  cbn [bind]. apply C100_summer_weights_read. intros k Hk. now rewrite E.
Qed.

(** winter and melting layer: a sequence per variable, long enough for every
    class the weight sums run over *)
Definition long_enough (n : nat) (d : key -> option (wentry F)) (vl : list key) : Prop :=
  forall k, In k vl -> exists l, d k = Some (WSeq l) /\ (n <= length l)%nat.

Lemma read_ok d n vl : long_enough n d vl -> exists rows, read_weights d n vl = Ok rows.
Proof.
  intro E. apply mapM_total. intros i Hi. apply in_seq in Hi. apply mapM_total. intros k Hk.
  destruct (E k Hk) as (l & D & L). unfold class_weight, dict_get. rewrite D. cbn [bind].
  unfold idx. destruct (nth_error l i) eqn:En; [eauto|]. apply nth_error_None in En. lia.
Qed.
Lemma mapM_first {A B} (f : A -> res B) l1 x l2 e : (forall y, In y l1 -> exists z, f y = Ok z) -> f x = Raise e ->
  mapM f (l1 ++ x :: l2) = Raise e.
Proof.
  intros G E. induction l1 as [|y l1 IH]; cbn [app mapM].
  - now rewrite E.
  - destruct (G y) as (z & ->); [left; auto|]. cbn [bind]. rewrite IH; auto. intros. apply G. now right.
Qed.

Theorem C100_winter_dictionary ut (d : key -> option (wentry F)) w method (a : fields F) tf warm bd :
  (forall k, In k (weighted method) -> exists l, d k = Some (WSeq l) /\ (6 <= length l)%nat /\
     forall c, (c < 6)%nat -> nth_error l c = Some (w k c)) ->
  winter_dict ut d method a tf warm bd = csu_fhc_winter ut w method a tf warm bd.
Proof.
  intro E. unfold winter_dict.
  destruct (negb (fhc_vars a KDZ)) eqn:Z; [unfold csu_fhc_winter; now rewrite Z|].
  destruct (varlist method) as [vl|] eqn:Ev; [|unfold csu_fhc_winter; now rewrite Z, Ev].
  apply varlist_some in Ev. subst vl.
  destruct (read_ok d 6 (weighted method)) as (rows & ->).
  { intros k Hk. destruct (E k Hk) as (l & D & L & _). eauto. }
  cbn [bind]. apply C100_winter_weights_read. intros k c Hk Hc. destruct (E k Hk) as (l & D & L & G).
  unfold entry. rewrite D. now apply nth_error_nth, G.
Qed.
Theorem C100_melt_dictionary ut (d : key -> option (wentry F)) w method (a : fields F) n tf bd :
  (forall k, In k (weighted method) -> exists l, d k = Some (WSeq l) /\ (2 <= length l)%nat /\
     forall c, (c < 2)%nat -> nth_error l c = Some (w k c)) ->
  melt_dict ut d method a n tf bd = csu_fhc_cold_newml1 ut w method a n tf bd.
Proof.
  intro E. unfold melt_dict.
  destruct (negb (fhc_vars a KDZ)) eqn:Z; [unfold csu_fhc_cold_newml1; now rewrite Z|].
  destruct (varlist method) as [vl|] eqn:Ev; [|unfold csu_fhc_cold_newml1; now rewrite Z, Ev].
  apply varlist_some in Ev. subst vl.
  destruct (read_ok d 2 (weighted method)) as (rows & ->).
  { intros k Hk. destruct (E k Hk) as (l & D & L & _). eauto. }
  cbn [bind]. apply C100_melt_weights_read. intros k c Hk Hc. destruct (E k Hk) as (l & D & L & G).
  unfold entry. rewrite D. now apply nth_error_nth, G.
Qed.

(** the first read that fails decides: [k] is missing and the variables read
    before it have at least one entry *)
Lemma read_missing (d : key -> option (wentry F)) n l1 k l2 : (0 < n)%nat -> d k = None -> long_enough 1 d l1 ->
  read_weights d n (l1 ++ k :: l2) = Raise KeyError.
Proof.
  intros Hn N L. unfold read_weights. destruct n as [|n]; [lia|]. cbn [seq mapM].
  assert (R0 : mapM (class_weight d 0) (l1 ++ k :: l2) = Raise KeyError); [|now rewrite R0].
  apply mapM_first.
  - intros y Hy. destruct (L y Hy) as (l & D & Ll). unfold class_weight, dict_get. rewrite D. cbn [bind].
    destruct l; [cbn in Ll; lia|]. cbn. eauto.
  - unfold class_weight, dict_get. now rewrite N.
Qed.
Lemma read_number (d : key -> option (wentry F)) n l1 k l2 x : (0 < n)%nat -> d k = Some (WNum x) -> long_enough 1 d l1 ->
  read_weights d n (l1 ++ k :: l2) = Raise TypeError.
Proof.
  intros Hn N L. unfold read_weights. destruct n as [|n]; [lia|]. cbn [seq mapM].
  assert (R0 : mapM (class_weight d 0) (l1 ++ k :: l2) = Raise TypeError); [|now rewrite R0].
  apply mapM_first.
  - intros y Hy. destruct (L y Hy) as (l & D & Ll). unfold class_weight, dict_get. rewrite D. cbn [bind].
    destruct l; [cbn in Ll; lia|]. cbn. eauto.
  - unfold class_weight, dict_get. now rewrite N.
Qed.
(** sequences everywhere, one of them too short *)
Lemma read_short (d : key -> option (wentry F)) n vl k l : (forall k, In k vl -> exists l, d k = Some (WSeq l)) ->
  In k vl -> d k = Some (WSeq l) -> (length l < n)%nat -> read_weights d n vl = Raise IndexError.
Proof.
  intros G I D L.
  assert (row : forall i, (exists r, mapM (class_weight d i) vl = Ok r) \/ mapM (class_weight d i) vl = Raise IndexError).
  { intro i. clear I D L. induction vl as [|k' vl' IH]; cbn [mapM]; eauto.
    destruct (G k') as (l' & D'); [left; auto|]. unfold class_weight at 1 3, dict_get. rewrite D'. cbn [bind]. unfold idx.
    destruct (nth_error l' i); cbn [bind]; auto.
    destruct IH as [(r & ->)| ->]; [intros; apply G; now right|left; cbn [bind]; eauto|right; auto]. }
  assert (bad : mapM (class_weight d (length l)) vl = Raise IndexError).
  { destruct (row (length l)) as [(r & E)|E]; auto. exfalso. apply mapM_ok in E as (_ & E).
    apply In_nth_error in I as (j & Hj). destruct (E j k Hj) as (y & _ & Ey).
    unfold class_weight, dict_get in Ey. rewrite D in Ey. cbn [bind] in Ey. unfold idx in Ey.
    destruct (nth_error l (length l)) eqn:En; [|discriminate]. apply nth_error_lt in En. lia. }
  unfold read_weights. assert (Ix : In (length l) (seq 0 n)) by (apply in_seq; lia). clear L.
  induction (seq 0 n) as [|i is IH]; [contradiction|]. cbn [mapM].
  destruct (row i) as [(r & E)|E]; rewrite E; cbn [bind]; auto.
  destruct Ix as [->|Ix]; [congruence|]. now rewrite (IH Ix).
Qed.

Theorem C100_winter_missing_weight ut (d : key -> option (wentry F)) method (a : fields F) tf warm bd l1 k l2 :
  supplied (a KDZ) = true -> known method -> weighted method = l1 ++ k :: l2 -> long_enough 1 d l1 -> d k = None ->
  winter_dict ut d method a tf warm bd = Raise KeyError.
Proof.
  intros Z K E L N. unfold winter_dict. change (fhc_vars a KDZ) with (supplied (a KDZ)). rewrite Z, varlist_known by auto.
  cbn [negb]. rewrite E, read_missing; auto. lia.
Qed.
(** numbers instead of sequences (the structure csu_fhc_summer expects) *)
Theorem C100_winter_number_weight ut (d : key -> option (wentry F)) method (a : fields F) tf warm bd l1 k l2 x :
  supplied (a KDZ) = true -> known method -> weighted method = l1 ++ k :: l2 -> long_enough 1 d l1 -> d k = Some (WNum x) ->
  winter_dict ut d method a tf warm bd = Raise TypeError.
Proof.
  intros Z K E L N. unfold winter_dict. change (fhc_vars a KDZ) with (supplied (a KDZ)). rewrite Z, varlist_known by auto.
  cbn [negb]. rewrite E, (read_number _ _ _ _ _ x); auto. lia.
Qed.
(** fewer than six weights fail although only two or four classes are scored *)
Theorem C100_winter_short_weights ut (d : key -> option (wentry F)) method (a : fields F) tf warm bd k l :
  supplied (a KDZ) = true -> known method -> (forall k, In k (weighted method) -> exists l, d k = Some (WSeq l)) ->
  In k (weighted method) -> d k = Some (WSeq l) -> (length l < 6)%nat ->
  winter_dict ut d method a tf warm bd = Raise IndexError.
Proof.
  intros Z K G I D L. unfold winter_dict. change (fhc_vars a KDZ) with (supplied (a KDZ)). rewrite Z, varlist_known by auto.
  cbn [negb]. now rewrite (read_short _ _ _ k l).
Qed.
Theorem C100_melt_missing_weight ut (d : key -> option (wentry F)) method (a : fields F) n tf bd l1 k l2 :
  supplied (a KDZ) = true -> known method -> weighted method = l1 ++ k :: l2 -> long_enough 1 d l1 -> d k = None ->
  melt_dict ut d method a n tf bd = Raise KeyError.
Proof.
  intros Z K E L N. unfold melt_dict. change (fhc_vars a KDZ) with (supplied (a KDZ)). rewrite Z, varlist_known by auto.
  cbn [negb]. rewrite E, read_missing; auto.
Qed.
Theorem C100_melt_short_weights ut (d : key -> option (wentry F)) method (a : fields F) n tf bd k l :
  supplied (a KDZ) = true -> known method -> (forall k, In k (weighted method) -> exists l, d k = Some (WSeq l)) ->
  In k (weighted method) -> d k = Some (WSeq l) -> (length l < 2)%nat ->
  melt_dict ut d method a n tf bd = Raise IndexError.
Proof.
  intros Z K G I D L. unfold melt_dict. change (fhc_vars a KDZ) with (supplied (a KDZ)). rewrite Z, varlist_known by auto.
  cbn [negb]. now rewrite (read_short _ _ _ k l).
Qed.
End Lawfree.

(** ** Weights are relative (exact arithmetic) *)
Open Scope R_scope.
Section Scale.
Variable c0 : R.
Hypothesis Pc : 0 < c0.
Definition sc (x : xr) : xr := fmul (Fin c0) x.

Lemma xinf_sc r : xinf (c0 * r) = xinf r.
Proof. unfold xinf. destruct (Rlt_dec 0 (c0 * r)), (Rlt_dec 0 r), (Rlt_dec (c0 * r) 0), (Rlt_dec r 0); auto; exfalso; nra. Qed.
Lemma sc_pinf : sc PInf = PInf.
Proof. unfold sc. cbn. unfold xinf. destruct (Rlt_dec 0 c0); auto; lra. Qed.
Lemma sc_ninf : sc NInf = NInf.
Proof. unfold sc. cbn. unfold xinf. destruct (Rlt_dec 0 (- c0)); [lra|]. destruct (Rlt_dec (- c0) 0); auto; lra. Qed.
Lemma sc_add x y : fadd (sc x) (sc y) = sc (fadd x y).
Proof.
  destruct x as [x| | |], y as [y| | |]; rewrite ?sc_pinf, ?sc_ninf; cbn [fadd xr_ops xadd]; rewrite ?sc_pinf, ?sc_ninf;
    try reflexivity. unfold sc. rewrite !fmul_fin. cbn. f_equal. ring.
Qed.
Lemma sc_mul x y : fmul (sc x) y = sc (fmul x y).
Proof.
  destruct x as [x| | |], y as [y| | |]; rewrite ?sc_pinf, ?sc_ninf; try reflexivity.
  - unfold sc. rewrite !fmul_fin. f_equal. ring.
  - unfold sc at 1. cbn -[sc]. rewrite xinf_sc. unfold xinf. destruct (Rlt_dec 0 x); [now rewrite sc_pinf|].
    destruct (Rlt_dec x 0); [now rewrite sc_ninf|reflexivity].
  - unfold sc at 1. cbn -[sc]. replace (- (c0 * x)) with (c0 * - x) by ring. rewrite xinf_sc. unfold xinf.
    destruct (Rlt_dec 0 (- x)); [now rewrite sc_pinf|]. destruct (Rlt_dec (- x) 0); [now rewrite sc_ninf|reflexivity].
  - cbn -[sc]. unfold xinf. destruct (Rlt_dec 0 y); [now rewrite sc_pinf|].
    destruct (Rlt_dec y 0); [now rewrite sc_ninf|reflexivity].
  - cbn -[sc]. now rewrite sc_pinf.
  - cbn -[sc]. now rewrite sc_ninf.
  - cbn -[sc]. unfold xinf. destruct (Rlt_dec 0 (- y)); [now rewrite sc_pinf|].
    destruct (Rlt_dec (- y) 0); [now rewrite sc_ninf|reflexivity].
  - cbn -[sc]. now rewrite sc_ninf.
  - cbn -[sc]. now rewrite sc_pinf.
Qed.
Lemma sc_mul' x y : fmul x (sc y) = sc (fmul x y).
Proof.
  assert (C : forall u v : xr, fmul u v = fmul v u).
  { intros [u| | |] [v| | |]; try reflexivity. rewrite !fmul_fin. f_equal. ring. }
  rewrite (C x), sc_mul. f_equal. apply C.
Qed.
Lemma sc_div x y : fdiv (sc x) (sc y) = fdiv x y.
Proof.
  destruct x as [x| | |], y as [y| | |]; rewrite ?sc_pinf, ?sc_ninf; unfold sc; cbn; try reflexivity.
  - destruct (Req_EM_T (c0 * y) 0) as [E|E], (Req_EM_T y 0) as [E'|E'].
    + apply xinf_sc.
    + exfalso. apply Rmult_integral in E. lra.
    + exfalso. apply E. rewrite E'. ring.
    + f_equal. field. split; lra.
  - destruct (Rlt_dec (c0 * y) 0), (Rlt_dec y 0); auto; exfalso; nra.
  - destruct (Rlt_dec (c0 * y) 0), (Rlt_dec y 0); auto; exfalso; nra.
Qed.

Lemma fold_sc l x : fold_left fadd (map sc l) (sc x) = sc (fold_left fadd l x).
Proof. revert x. induction l as [|y l IH]; intro x; cbn [map fold_left]; auto. now rewrite sc_add, IH. Qed.
Lemma fsum_sc l : l <> [] -> fsum (map sc l) = sc (fsum l).
Proof. destruct l; [contradiction|]. intros _. apply fold_sc. Qed.
Lemma ws_sc v w vl : vl <> [] -> weight_sum v (fun k => sc (w k)) vl = sc (weight_sum v w vl).
Proof.
  intro N. unfold weight_sum. rewrite <- fsum_sc by (destruct vl; [contradiction|discriminate]).
  rewrite map_map. f_equal. apply map_ext. intro k. now rewrite sc_mul'.
Qed.
Lemma map2_sc (a b : list xr) : map2 (fun x y => f32 (fadd x y)) (map sc a) (map sc b) = map sc (map2 (fun x y => f32 (fadd x y)) a b).
Proof.
  revert b. induction a as [|x a IH]; intros [|y b]; cbn [map map2]; auto. now rewrite IH, !f32_xr, sc_add.
Qed.
Lemma rows_sc rs r : fold_left (map2 (fun x y => f32 (fadd x y))) (map (map sc) rs) (map sc r)
  = map sc (fold_left (map2 (fun x y : xr => f32 (fadd x y))) rs r).
Proof. revert r. induction rs as [|y rs IH]; intro r; cbn [map fold_left]; auto. now rewrite map2_sc, IH. Qed.
Lemma vsum_sc rows ws : vsum_div (map (map sc) rows) (sc ws) = vsum_div rows ws.
Proof.
  destruct rows as [|r rs]; auto. cbn [map vsum_div]. rewrite rows_sc, map_map. f_equal. apply map_ext. intro x.
  now rewrite !fnp_xr, sc_div.
Qed.
Lemma mapM_sc {A} (f g : A -> res (list xr)) l :
  (forall x, In x l -> f x = (y <- g x ;; Ok (map sc y))) -> mapM f l = (ys <- mapM g l ;; Ok (map (map sc) ys)).
Proof.
  induction l as [|x l IH]; intro E; cbn [mapM bind map]; auto. rewrite E by (left; auto).
  destruct (g x); cbn [bind]; auto. rewrite IH by (intros; apply E; now right). destruct (mapM g l); cbn [bind]; auto.
Qed.
Lemma ct_sc v w rd sets vl c sz : vl <> [] ->
  calculate_test v (fun k => sc (w k)) rd sets vl (weight_sum v (fun k => sc (w k)) vl) c sz
  = calculate_test v w rd sets vl (weight_sum v w vl) c sz.
Proof.
  intro N. rewrite ws_sc by auto. unfold calculate_test.
  rewrite (mapM_sc _ (fun kx : key * list xr => let '(k, x) := kx in
                  bt <- beta_of sz x (sets k) c ;;
                  Ok (map (fun y => f32 (fmul (f32 (fmul (flag (v k)) (w k))) y)) bt))).
  - destruct (mapM _ _) as [rows| | | |]; cbn [bind]; auto. apply vsum_sc.
  - intros (k, x) _. destruct (beta_of sz x (sets k) c); cbn [bind]; auto. rewrite map_map. f_equal.
    apply map_ext. intro y. rewrite !f32_xr, sc_mul'. apply sc_mul.
Qed.
Lemma weighted_ne method : weighted method <> [].
Proof. unfold weighted. destruct (contains _ _); discriminate. Qed.

(** multiplying every weight by the same positive number changes nothing: not
    one score, class or exception *)
Theorem C100_summer_weights_relative ut w method (a : fields xr) n tf bd rs :
  csu_fhc_summer ut (fun k => fmul (Fin c0) (w k)) method a false n tf bd rs = csu_fhc_summer ut w method a false n tf bd rs.
Proof.
  change (fun k => fmul (Fin c0) (w k)) with (fun k => sc (w k)).
  unfold csu_fhc_summer. destruct (negb _); auto. destruct (varlist method) as [vl|] eqn:Ev; auto.
  apply varlist_some in Ev. subst vl. cbv zeta.
  match goal with |- bind ?x _ = bind ?y _ => assert (x = y) as -> end; auto.
  apply gtl_ext. intro c. apply ct_sc, weighted_ne.
Qed.
Theorem C100_winter_weights_relative ut w method (a : fields xr) tf warm bd :
  csu_fhc_winter ut (fun k c => fmul (Fin c0) (w k c)) method a tf warm bd = csu_fhc_winter ut w method a tf warm bd.
Proof.
  unfold csu_fhc_winter. destruct (negb _); auto. destruct (varlist method) as [vl|] eqn:Ev; auto.
  apply varlist_some in Ev. subst vl. cbv zeta.
  match goal with |- bind ?x _ = bind ?y _ => assert (x = y) as -> end; auto.
  apply gtl_ext. intro c. apply (ct_sc _ (fun k => w k c)), weighted_ne.
Qed.
Theorem C100_melt_weights_relative ut w method (a : fields xr) n tf bd :
  csu_fhc_cold_newml1 ut (fun k c => fmul (Fin c0) (w k c)) method a n tf bd = csu_fhc_cold_newml1 ut w method a n tf bd.
Proof.
  unfold csu_fhc_cold_newml1. destruct (negb _); auto. destruct (varlist method) as [vl|] eqn:Ev; auto.
  apply varlist_some in Ev. subst vl. cbv zeta.
  match goal with |- bind ?x _ = bind ?y _ => assert (x = y) as -> end; auto.
  apply gtl_ext. intro c. apply (ct_sc _ (fun k => w k c)), weighted_ne.
Qed.
End Scale.

(** ** Weights of variables that were not measured *)
Definition finite (x : xr) : Prop := exists r, x = Fin r.
Section Absent.
Variables (a : fields xr) (ut : bool) (u : key -> bool).
Hypothesis Hu : forall k, u k = used_vars a (if fhc_vars a KT then ut else false) k.
Lemma ws_absent w w' vl : (forall k, In k vl -> u k = true -> w k = w' k) ->
  (forall k, In k vl -> u k = false -> finite (w k) /\ finite (w' k)) ->
  weight_sum (used_vars a (if fhc_vars a KT then ut else false)) w vl
  = weight_sum (used_vars a (if fhc_vars a KT then ut else false)) w' vl.
Proof.
  intros E N. unfold weight_sum. f_equal. apply map_ext_in. intros k Hk. rewrite <- Hu.
  destruct (u k) eqn:U; [now rewrite E|]. destruct (N k Hk U) as ((r & ->) & (r' & ->)).
  unfold flag. rewrite lit_fin. cbn [Qnum Qden]. rewrite !fmul_fin. f_equal. lra.
Qed.
End Absent.
Lemma used_eq (a : fields xr) ut k : used a ut k = used_vars a (if fhc_vars a KT then ut else false) k.
Proof. destruct k; auto. cbn. unfold supplied, fhc_vars. destruct (a KT); auto. Qed.

Lemma ct_absent (a : fields xr) ut s tf bd w w' vl ws c sz : (forall k, In k vl -> used a ut k = true -> w k = w' k) ->
  let ut' := if fhc_vars a KT then ut else false in
  calculate_test (used_vars a ut') w (radar_data a) (get_sets s ut' tf bd) vl ws c sz
  = calculate_test (used_vars a ut') w' (radar_data a) (get_sets s ut' tf bd) vl ws c sz.
Proof.
  intros E ut'. unfold calculate_test. f_equal. apply mapM_ext. intros (k, x) I.
  pose proof (in_flat_key _ _ _ _ I) as Hk. apply in_flat_map in I as (k' & _ & I).
  destruct (radar_data a k') as [x'|] eqn:R; [|contradiction]. destruct I as [I|[]]. injection I as -> ->.
  destruct (used a ut k) eqn:U; [now rewrite E|].
  assert (k = KT /\ ut' = false) as (-> & T).
  { rewrite used_eq in U. fold ut' in U. assert (Sk : fhc_vars a k = true).
    { unfold radar_data in R. unfold fhc_vars. destruct (a k); [discriminate|reflexivity..]. }
    destruct k; cbn [used_vars] in U; try congruence. split; auto. rewrite Sk in U. exact U. }
  rewrite T. reflexivity.
Qed.

(** ... do not matter as long as they are finite numbers *)
Theorem C100_summer_absent_weights ut w w' method (a : fields xr) n tf bd rs :
  (forall k, In k (weighted method) -> used a ut k = true -> w k = w' k) ->
  (forall k, In k (weighted method) -> used a ut k = false -> finite (w k) /\ finite (w' k)) ->
  csu_fhc_summer ut w method a false n tf bd rs = csu_fhc_summer ut w' method a false n tf bd rs.
Proof.
  intros E N. unfold csu_fhc_summer. destruct (negb _); auto. destruct (varlist method) as [vl|] eqn:Ev; auto.
  apply varlist_some in Ev. subst vl. cbv zeta. rewrite (ws_absent a ut (used a ut) (used_eq a ut) w w') by auto.
  match goal with |- bind ?x _ = bind ?y _ => assert (x = y) as -> end; auto.
  apply gtl_ext. intro c. apply ct_absent. auto.
Qed.
Theorem C100_winter_absent_weights ut w w' method (a : fields xr) tf warm bd :
  (forall k c, In k (weighted method) -> used a ut k = true -> w k c = w' k c) ->
  (forall k c, In k (weighted method) -> used a ut k = false -> finite (w k c) /\ finite (w' k c)) ->
  csu_fhc_winter ut w method a tf warm bd = csu_fhc_winter ut w' method a tf warm bd.
Proof.
  intros E N. unfold csu_fhc_winter. destruct (negb _); auto. destruct (varlist method) as [vl|] eqn:Ev; auto.
  apply varlist_some in Ev. subst vl. cbv zeta.
  match goal with |- bind ?x _ = bind ?y _ => assert (x = y) as -> end; auto.
  apply gtl_ext. intro c. rewrite (ws_absent a ut (used a ut) (used_eq a ut) (fun k => w k c) (fun k => w' k c)) by auto.
  apply ct_absent. auto.
Qed.
Theorem C100_melt_absent_weights ut w w' method (a : fields xr) n tf bd :
  (forall k c, In k (weighted method) -> used a ut k = true -> w k c = w' k c) ->
  (forall k c, In k (weighted method) -> used a ut k = false -> finite (w k c) /\ finite (w' k c)) ->
  csu_fhc_cold_newml1 ut w method a n tf bd = csu_fhc_cold_newml1 ut w' method a n tf bd.
Proof.
  intros E N. unfold csu_fhc_cold_newml1. destruct (negb _); auto. destruct (varlist method) as [vl|] eqn:Ev; auto.
  apply varlist_some in Ev. subst vl. cbv zeta.
  match goal with |- bind ?x _ = bind ?y _ => assert (x = y) as -> end; auto.
  apply gtl_ext. intro c. rewrite (ws_absent a ut (used a ut) (used_eq a ut) (fun k => w k c) (fun k => w' k c)) by auto.
  apply ct_absent. auto.
Qed.

(** ... but a weight that is not a finite number ruins every gate, measured or not *)
Theorem C100_nonfinite_absent_weight ut w method (a : fields xr) n tf bd sh mu k :
  csu_fhc_summer ut w method a false n tf bd true = Ok (Scores sh mu) ->
  any_pol (fun k => supplied (a k)) = true -> In k (weighted method) -> used a ut k = false -> ~ finite (w k) ->
  forall c i, (c < 10)%nat -> (i < size (a KDZ))%nat -> nth_error mu (c * size (a KDZ) + i) = Some NaN.
Proof.
  intros E P I U N c i Hc Hi. apply summer_scores in E as (_ & _ & _ & G).
  destruct (G c i Hc Hi) as (y & -> & Ey). f_equal. unfold summer_gate in Ey.
  destruct (varlist method) as [vl|] eqn:Evl; [|discriminate]. pose proof (varlist_some _ _ Evl) as ->. cbv zeta in Ey.
  rewrite any_pol_flag, P in Ey.
  match type of Ey with context [weight_sum ?v w _] => set (vv := v) in *;
    assert (WN : weight_sum vv w (weighted method) = NaN) end.
  { assert (V : vv k = false) by (rewrite <- U; apply used_v).
    unfold weight_sum. assert (J : In NaN (map (fun k => fmul (flag (vv k)) (w k)) (weighted method))).
    { apply in_map_iff. exists k. split; auto. rewrite V. unfold flag. rewrite lit_fin. cbn [Qnum Qden].
      destruct (w k) as [r| | |]; [exfalso; apply N; now exists r|..]; cbn; try reflexivity;
        unfold xinf; repeat destruct (Rlt_dec _ _); try lra; reflexivity. }
    destruct (map _ _) as [|z l]; [contradiction|]. cbn [fsum]. destruct J as [->|J]; [apply fold_nan|now apply fold_in_nan]. }
  rewrite WN in Ey.
  assert (CN : forall c g z, gate_calc vv w (get_sets Summer (if supplied (a KT) then ut else false) tf bd) (weighted method) NaN c g = Ok z -> z = NaN).
  { intros c' g z Ez. unfold gate_calc in Ez. apply bind_ok in Ez as (l & _ & Ez). unfold gsum in Ez.
    destruct l as [|z0 l]; [discriminate|]. injection Ez as <-. match goal with |- context [fold_left ?f l z0] => destruct (fold_left f l z0) end; reflexivity. }
  unfold gate_row in Ey. destruct (contains "hybrid" method).
  - apply bind_ok in Ey as (z & Ez & Ey). apply CN in Ez. subst z.
    destruct (if supplied (a KT) then ut else false).
    + apply bind_ok in Ey as (b & _ & Ey). apply bind_ok in Ey as (b' & _ & Ey). injection Ey as <-. reflexivity.
    + apply bind_ok in Ey as (b & _ & Ey). injection Ey as <-. reflexivity.
  - now apply CN in Ey.
Qed.

(** with use_trap in the linear method the weights are not relative: the
    temperature term is not weighted (C35).  Twice the default weights lower the
    score 1.12 of a class at its centre to 1.02 *)
Theorem C100_trapezoids_not_relative bd c : (c < 10)%nat -> c <> 8%nat -> exists x mu mu',
  csu_fhc_summer true (fun k => Fin (ex_W k)) "linear" (one_gate x) true 10 (Fin 1) bd true = Ok (Scores [10%nat; 1%nat] mu) /\
  csu_fhc_summer true (fun k => fmul (Fin 2) (Fin (ex_W k))) "linear" (one_gate x) true 10 (Fin 1) bd true = Ok (Scores [10%nat; 1%nat] mu') /\
  nth_error mu c = Some (Fin (112 / 100)) /\ nth_error mu' c = Some (Fin (102 / 100)).
Proof.
  intros Hc H8. destruct (trap_above_one bd c Hc H8) as (t & _ & Et).
  set (x := fun k => match k with KT => t | _ => centre bd k c end).
  destruct (one_gate_scores bd x) as (mu & E & G).
  destruct (C35_exact true (fun k => 2 * ex_W k) "linear" (one_gate x) 1 bd) as (mu' & E' & _ & G'); try lra; auto.
  - unfold scores_ok. split; [reflexivity|]. split; [reflexivity|]. split; [intros k _; reflexivity|].
    right. split; [reflexivity|]. split; [reflexivity|]. intros _. now left.
  - unfold ksum, all_keys, used, one_gate, ex_W. simpl. lra.
  - exists x, mu, mu'. split; [exact E|]. split.
    { rewrite (C100_summer_weights_read _ _ (fun k => Fin (2 * ex_W k))); [exact E'|]. intros. apply fmul_fin. }
    rewrite G by auto. split; [do 2 f_equal; rewrite <- Et; reflexivity|].
    specialize (G' c 0%nat (fun k => Fin (x k)) Hc). change (size (one_gate x KDZ)) with 1%nat in G'.
    rewrite Nat.mul_1_r, Nat.add_0_r in G'. rewrite G'; [|lia|intros k _; split; [reflexivity|discriminate]].
    do 2 f_equal. revert Et. unfold trap_score, ksum, no_T, all_keys. cbn [fold_right].
    change (supplied (one_gate x KT)) with true. cbn [used supplied one_gate andb]. unfold x.
    rewrite !membership_centre by (auto; discriminate). unfold ex_W. lra.
Qed.

(** ** Non-vacuity *)
(** measured: dBZ and Zdr at one gate; method 'hybrid' *)
Definition zd (z d : xr) : fields xr := fun k =>
  match k with KDZ => AArr (mkarr DFloat [1%nat] [z]) | KDR => AArr (mkarr DFloat [1%nat] [d]) | _ => ANone end.
Lemma zd_ok z d : scores_ok (zd z d) true "hybrid" false.
Proof.
  split; [reflexivity|]. split; [reflexivity|]. split; [intros [] H; try discriminate; reflexivity|]. now left.
Qed.
(** a dictionary with the Zdr weight alone raises although nothing else is
    measured; {DR: 0.8, KD: 7, RH: 0, LD: 3} works like the default one *)
Example C100_dictionaries z d bd :
  summer_dict true (fun k => match k with KDR => Some (flit 0.8) | _ => None end) "hybrid" (zd z d) false 10 (Fin 1) bd true
    = Raise KeyError /\
  exists mu, summer_dict true (fun k => match k with KDR => Some (Fin 0.8) | KKD => Some (Fin 7) | KRH => Some (Fin 0)
      | KLD => Some (Fin 3) | _ => None end) "hybrid" (zd z d) false 10 (Fin 1) bd true = Ok (Scores [10; 1]%nat mu) /\
    csu_fhc_summer true summer_weights "hybrid" (zd z d) false 10 (Fin 1) bd true = Ok (Scores [10; 1]%nat mu).
Proof.
  split.
  - apply (C100_summer_missing_weight _ _ _ _ _ _ _ _ _ KKD); auto; [now left|cbn; auto].
  - destruct (summer_total true summer_weights "hybrid" (zd z d) false 1 bd (zd_ok z d)) as (mu & E); [lra|].
    change (shape (zd z d KDZ)) with [1%nat] in E. exists mu. split; [|exact E]. rewrite <- E.
    rewrite (C100_summer_dictionary _ _ (fun k => match k with KDR => Fin 0.8 | KKD => Fin 7 | KRH => Fin 0 | KLD => Fin 3 | _ => Fin 0 end)).
    + apply C100_summer_absent_weights.
      * intros k I U. destruct k; try discriminate U.
        -- exfalso. cbn in I. decompose [or] I; discriminate || contradiction.
        -- rewrite C35_default_weights. cbn. f_equal; lra.
      * intros k _ U. split; [destruct k; eexists; reflexivity|]. rewrite C35_default_weights. eexists; reflexivity.
    + intros k I. cbn in I. decompose [or] I; subst; try contradiction; reflexivity.
Qed.
(** the hypotheses of the winter theorems: the default dictionary of
    csu_fhc_summer has numbers and fails; the KKD list is one weight short *)
Example C100_winter_dictionaries (z d : xr) tf warm bd :
  winter_dict true (fun k => Some (WNum (summer_weights k))) "hybrid" (zd z d) tf warm bd = Raise TypeError /\
  winter_dict true (fun k => match k with KKD => Some (WSeq [Fin 1; Fin 1; Fin 1; Fin 1; Fin 1])
     | _ => Some (WSeq [Fin 1; Fin 1; Fin 1; Fin 1; Fin 1; Fin 1]) end) "hybrid" (zd z d) tf warm bd = Raise IndexError /\
  winter_dict true (fun k => match k with KKD => None | _ => Some (WSeq [Fin 1; Fin 1; Fin 1; Fin 1; Fin 1; Fin 1]) end)
     "hybrid" (zd z d) tf warm bd = Raise KeyError /\
  winter_dict true (fun k => match k with KDZ => None | _ => Some (WSeq [Fin 1; Fin 2; Fin 3; Fin 4; Fin 5; Fin 6]) end)
     "hybrid" (zd z d) tf warm bd = csu_fhc_winter true (fun _ c => Fin (INR (S c))) "hybrid" (zd z d) tf warm bd.
Proof.
  split; [|split; [|split]].
  - apply (C100_winter_number_weight _ _ _ _ _ _ _ [] KDR [KKD; KRH; KLD] (summer_weights KDR)); auto; [now left|intros ? []].
  - apply (C100_winter_short_weights _ _ _ _ _ _ _ KKD [Fin 1; Fin 1; Fin 1; Fin 1; Fin 1]); auto; [now left| |cbn; auto].
    intros k _. destruct k; eauto.
  - apply (C100_winter_missing_weight _ _ _ _ _ _ _ [KDR] KKD [KRH; KLD]); auto; [now left|].
    intros k [<-|[]]. eexists. split; [reflexivity|cbn; lia].
  - apply C100_winter_dictionary. intros k I. exists [Fin 1; Fin 2; Fin 3; Fin 4; Fin 5; Fin 6].
    split; [cbn in I; decompose [or] I; subst; try contradiction; reflexivity|]. split; [cbn; lia|].
    intros c Hc. do 6 (destruct c as [|c]; [cbn; do 2 f_equal; lra|]). lia.
Qed.
