(** * C92, C93: the files written by plot_flag=True *)
From Coq Require Import Reals Lra Lia Qreals Arith.
From Verif Require Import Base.Num Base.ListFacts Base.XReal Base.XTac Base.Pointwise Base.XArith Base.QOps.
From Verif Require Import Model.Tables Model.Beta Model.Hid Model.Plot Spec.HidSpec Spec.PlotSpec.
From Verif Require Import Proofs.HidProofs Proofs.BetaProofs.
Open Scope R_scope.

Lemma csv_len s b k : length (csv s b k) = classes s.
Proof. destruct s, b, k; vm_compute; reflexivity. Qed.

Lemma path_eq (pdir : string) b i l : idx labels i = Ok l ->
  (pdir ++ l ++ "_beta_" ++ band_name b ++ ".png")%string = plot_path pdir b i /\ l = species_name i.
Proof.
  unfold idx. change labels with species. destruct (nth_error species i) eqn:E; [|discriminate].
  intro X. injection X as <-. apply nth_error_nth with (d := ""%string) in E.
  unfold plot_path, species_name. rewrite E. split; auto.
Qed.

Section Generic.
Context {F : Type} `{FloatOps F}.

Lemma set_len s ut tf b k st : get_sets s ut tf b k = Some st ->
  length (sm st) = classes s /\ length (sa st) = classes s /\ length (sb st) = classes s.
Proof.
  destruct k; simpl; try destruct ut; intro E; try discriminate; injection E as <-;
    unfold get_beta_set; cbn [sm sa sb]; rewrite !map_length, csv_len; auto.
Qed.

Lemma example_ok s tf b k i : (i < classes s)%nat ->
  exists y, get_beta_example k (get_sets s true tf b k) i = Ok y.
Proof.
  intro L. destruct (get_sets s true tf b k) as [st|] eqn:E; [|destruct k; discriminate].
  destruct (set_len _ _ _ _ _ _ E) as (A & B & C). unfold get_beta_example, idx.
  destruct (nth_error_map_some (sm st) (i:=i)) as (? & ->); [lia|].
  destruct (nth_error_map_some (sa st) (i:=i)) as (? & ->); [lia|].
  destruct (nth_error_map_some (sb st) (i:=i)) as (? & ->); [lia|]. cbn [bind]. eauto.
Qed.
Lemma example_high s tf b ut i : (classes s <= i)%nat ->
  get_beta_example KDZ (get_sets s ut tf b KDZ) i = Raise IndexError.
Proof.
  intro L. unfold get_sets, get_beta_example, idx, get_beta_set. cbn [sm].
  rewrite (proj2 (nth_error_None _ _)); auto. rewrite map_length, csv_len. auto.
Qed.

Lemma one_ok s tf b pdir i : (i < classes s)%nat ->
  exists f, plot_one (get_sets s true tf b) b tf pdir i = ([(plot_path pdir b i, f)], Ok tt)
   /\ fig_band f = band_letter b /\ fig_label f = species_name i /\ fig_factor f = tf
   /\ fig_panels f = map (fun p => (fst p, dummy (snd p),
         match get_beta_example (snd p) (get_sets s true tf b (snd p)) i with Ok y => y | _ => [] end)) panels.
Proof.
  intro L. unfold plot_one.
  destruct (example_ok s tf b KDZ i L) as (y1 & E1), (example_ok s tf b KKD i L) as (y2 & E2),
    (example_ok s tf b KDR i L) as (y3 & E3), (example_ok s tf b KLD i L) as (y4 & E4),
    (example_ok s tf b KRH i L) as (y5 & E5), (example_ok s tf b KT i L) as (y6 & E6).
  rewrite E1, E2, E3, E4, E5, E6. unfold lift, iobind.
  destruct (idx labels i) as [l| | | |] eqn:El.
  2-5: exfalso; unfold idx in El; destruct (nth_error labels i) eqn:N; try discriminate;
    apply nth_error_None in N; change (length labels) with 10%nat in N; destruct s; simpl in L; lia.
  destruct (path_eq pdir b _ _ El) as (P & N). unfold save. rewrite P. cbn [app].
  eexists. split; [reflexivity|]. cbn [fig_band fig_label fig_factor fig_panels].
  split; [reflexivity|]. split; [exact N|]. split; [reflexivity|].
  unfold panels. cbn [map fst snd]. rewrite E1, E2, E3, E4, E5, E6. reflexivity.
Qed.

(** the figure of class i *)
Definition the_fig s tf b i : figure F :=
  mkfig (band_letter b) (species_name i) tf
    (map (fun p => (fst p, dummy (snd p),
         match get_beta_example (snd p) (get_sets s true tf b (snd p)) i with Ok y => y | _ => [] end)) panels).

Lemma one_fig s tf b pdir i : (i < classes s)%nat ->
  plot_one (get_sets s true tf b) b tf pdir i = ([(plot_path pdir b i, the_fig s tf b i)], Ok tt).
Proof.
  intro L. destruct (one_ok s tf b pdir i L) as (f & E & A & B & C & D). rewrite E.
  do 3 f_equal. destruct f as [f1 f2 f3 f4]. cbn [fig_band fig_label fig_factor fig_panels] in *.
  unfold the_fig. now subst f1 f2 f3 f4.
Qed.

Definition the_files s tf b pdir n : list (string * figure F) :=
  map (fun i => (plot_path pdir b i, the_fig s tf b i)) (seq 0 n).

Lemma loop_ok s tf b pdir l : (forall i, In i l -> (i < classes s)%nat) ->
  plot_loop (get_sets s true tf b) b tf pdir l
  = (map (fun i => (plot_path pdir b i, the_fig s tf b i)) l, Ok tt).
Proof.
  induction l as [|i r IH]; intro Hl; [reflexivity|]. simpl plot_loop.
  rewrite one_fig by (apply Hl; now left). unfold iobind. rewrite IH; [reflexivity|].
  intros; apply Hl; now right.
Qed.
Lemma loop_app S b tf pdir (l1 l2 : list nat) :
  plot_loop (F:=F) S b tf pdir (l1 ++ l2)
  = iobind (plot_loop S b tf pdir l1) (fun _ => plot_loop S b tf pdir l2).
Proof.
  induction l1 as [|i r IH]; simpl.
  - unfold lift, iobind. destruct (plot_loop S b tf pdir l2). reflexivity.
  - rewrite IH. destruct (plot_one S b tf pdir i) as (w & [u| | | |]); simpl; auto.
    destruct (plot_loop S b tf pdir r) as (w' & [u'| | | |]); simpl; auto.
    destruct (plot_loop S b tf pdir l2) as (w'' & o). now rewrite app_assoc.
Qed.

Lemma get_mbf_ok s tf b pdir n : (n <= classes s)%nat ->
  get_mbf_sets s true true n tf b pdir = (the_files s tf b pdir n, Ok (get_sets s true tf b)).
Proof.
  intro L. unfold get_mbf_sets, plot_beta_functions. rewrite loop_ok.
  - unfold iobind, lift. now rewrite app_nil_r.
  - intros i Hi. apply in_seq in Hi. lia.
Qed.

(** ** C92: with temperature in use and at most as many species as the tables
    have, exactly one file per species is written, in order, and the parameters
    are returned as without plots. *)
Theorem C92_one_file_per_species s tf b pdir n : (n <= classes s)%nat ->
  exists w, get_mbf_sets s true true n tf b pdir = (w, Ok (get_sets s true tf b))
   /\ get_mbf_sets s true false n tf b pdir = ([], Ok (get_sets s true tf b))
   /\ map fst w = map (plot_path pdir b) (seq 0 n)
   /\ (forall i p f, nth_error w i = Some (p, f) ->
         fig_band f = band_letter b /\ fig_label f = species_name i /\ fig_factor f = tf
         /\ map (fun x => fst (fst x)) (fig_panels f) = map fst panels).
Proof.
  intro L. exists (the_files s tf b pdir n). split; [now apply get_mbf_ok|]. split; [reflexivity|]. split.
  - unfold the_files. rewrite map_map. reflexivity.
  - intros i p f E. unfold the_files in E. rewrite map_nth_error' in E.
    destruct (nth_error (seq 0 n) i) as [j|] eqn:Ej; [|discriminate]. cbn [option_map] in E.
    assert (j = i) as ->.
    { apply nth_error_nth with (d := O) in Ej as K. assert (Hi : (i < n)%nat).
      { rewrite <- (seq_length n 0). apply nth_error_Some. congruence. }
      rewrite seq_nth in K by auto. simpl in K. auto. }
    injection E as <- <-. repeat split; auto.
Qed.

(** With more species than the tables have (csu_fhc_winter's default n_types=7
    against its six classes), the call writes a file for each class and then
    raises IndexError. *)
Theorem C92_too_many_species s tf b pdir n : (classes s < n)%nat ->
  exists w, get_mbf_sets s true true n tf b pdir = (w, Raise IndexError)
   /\ map fst w = map (plot_path pdir b) (seq 0 (classes s)).
Proof.
  intro L. exists (the_files s tf b pdir (classes s)). split.
  - unfold get_mbf_sets, plot_beta_functions.
    replace n with (classes s + S (n - classes s - 1))%nat by lia.
    rewrite seq_app, loop_app, loop_ok.
    2:{ intros i Hi. apply in_seq in Hi. lia. }
    change (seq (0 + classes s) (S (n - classes s - 1)))
      with (classes s :: seq (S (classes s)) (n - classes s - 1)).
    simpl plot_loop. unfold plot_one at 1. rewrite example_high by lia.
    unfold lift, iobind. cbn [app]. rewrite !app_nil_r. reflexivity.
  - unfold the_files. rewrite map_map. reflexivity.
Qed.

(** Without temperature the plots cannot be made: TypeError before any file. *)
Theorem C92_no_temperature s tf b pdir n : (0 < n)%nat ->
  get_mbf_sets s false true n tf b pdir = ([], Raise TypeError).
Proof.
  intro L. destruct n as [|n]; [lia|]. unfold get_mbf_sets, plot_beta_functions.
  assert (E : plot_one (get_sets s false tf b) b tf pdir 0 = ([], Raise TypeError)).
  { unfold plot_one.
    assert (K : forall k, k <> KT -> exists y, get_beta_example k (get_sets s false tf b k) 0 = Ok y).
    { intros k Hk. replace (get_sets s false tf b k) with (get_sets s true tf b k) by (destruct k; auto; contradiction).
      apply example_ok. destruct s; simpl; lia. }
    destruct (K KDZ ltac:(discriminate)) as (? & ->), (K KKD ltac:(discriminate)) as (? & ->),
      (K KDR ltac:(discriminate)) as (? & ->), (K KLD ltac:(discriminate)) as (? & ->),
      (K KRH ltac:(discriminate)) as (? & ->). reflexivity. }
  simpl seq. simpl plot_loop. rewrite E. reflexivity.
Qed.

(** ** The classifiers *)

(** no reflectivity: nothing is written and None is returned *)
Lemma io_no_dz s ut pf (a : fields F) n tf b r : supplied (a KDZ) = false ->
  fhc_io s ut pf a n tf b r = ([], PyNone).
Proof.
  intro E. unfold fhc_io. replace (fhc_vars a KDZ) with (supplied (a KDZ)) by (unfold fhc_vars; destruct (a KDZ); auto).
  now rewrite E.
Qed.
Lemma io_off s ut (a : fields F) n tf b r : supplied (a KDZ) = true ->
  fhc_io s ut false a n tf b r = ([], r).
Proof.
  intro E. unfold fhc_io. replace (fhc_vars a KDZ) with (supplied (a KDZ)) by (unfold fhc_vars; destruct (a KDZ); auto).
  rewrite E. reflexivity.
Qed.
Lemma io_on s (a : fields F) n tf b r : supplied (a KDZ) = true -> supplied (a KT) = true -> (n <= classes s)%nat ->
  exists w, fhc_io s true true a n tf b r = (w, r) /\ map fst w = map (plot_path "./" b) (seq 0 n).
Proof.
  intros E T L. unfold fhc_io.
  replace (fhc_vars a KDZ) with (supplied (a KDZ)) by (unfold fhc_vars; destruct (a KDZ); auto).
  replace (fhc_vars a KT) with (supplied (a KT)) by (unfold fhc_vars; destruct (a KT); auto).
  rewrite E, T. cbn [negb]. rewrite get_mbf_ok by auto.
  exists (the_files s tf b "./" n). unfold iobind, lift. rewrite app_nil_r. split; auto.
  unfold the_files. rewrite map_map. reflexivity.
Qed.
Lemma io_no_T s ut (a : fields F) n tf b r : supplied (a KDZ) = true -> used a ut KT = false -> (0 < n)%nat ->
  fhc_io s ut true a n tf b r = ([], Raise TypeError).
Proof.
  intros E T L. unfold fhc_io.
  replace (fhc_vars a KDZ) with (supplied (a KDZ)) by (unfold fhc_vars; destruct (a KDZ); auto).
  replace (fhc_vars a KT) with (supplied (a KT)) by (unfold fhc_vars; destruct (a KT); auto).
  rewrite E. cbn [negb]. simpl in T. replace (if supplied (a KT) then ut else false) with false
    by (destruct (supplied (a KT)); auto).
  rewrite C92_no_temperature by auto. reflexivity.
Qed.

(** csu_fhc_summer: plot_flag=False writes nothing; with T in use and at most ten
    species plot_flag=True returns exactly what plot_flag=False returns and
    writes the files into the working directory; without T it raises TypeError. *)
Theorem C92_summer ut w m (a : fields F) trap n tf b rs :
  let call pf := csu_fhc_summer_io ut w m a pf trap n tf b rs in
  call false = ([], csu_fhc_summer ut w m a trap n tf b rs)
  /\ (supplied (a KDZ) = false -> call true = ([], PyNone))
  /\ (supplied (a KDZ) = true -> used a ut KT = true -> (n <= 10)%nat ->
        exists files, call true = (files, snd (call false))
         /\ map fst files = map (plot_path "./" b) (seq 0 n))
  /\ (supplied (a KDZ) = true -> used a ut KT = false -> (0 < n)%nat ->
        call true = ([], Raise TypeError)).
Proof.
  intro call. unfold call, csu_fhc_summer_io.
  assert (Z : csu_fhc_summer_io ut w m a false trap n tf b rs = ([], csu_fhc_summer ut w m a trap n tf b rs)).
  { unfold csu_fhc_summer_io. destruct (supplied (a KDZ)) eqn:E; [now apply io_off|].
    rewrite io_no_dz by auto. unfold csu_fhc_summer.
    replace (fhc_vars a KDZ) with (supplied (a KDZ)) by (unfold fhc_vars; destruct (a KDZ); auto).
    now rewrite E. }
  split; [exact Z|]. split; [intro; now apply io_no_dz|]. split.
  - intros E T L. simpl in T. apply andb_true_iff in T as (T & ->).
    unfold csu_fhc_summer_io in Z. rewrite Z. apply (io_on Summer); auto.
  - intros; now apply io_no_T.
Qed.

(** csu_fhc_winter: with T in use plot_flag=True leaves the result alone only for
    n_types <= 6; with the default n_types=7 it writes six files and raises
    IndexError; without T it raises TypeError. *)
Theorem C92_winter ut w m (a : fields F) n tf warm b :
  let call pf n := csu_fhc_winter_io ut w m a pf n tf warm b in
  call false n = ([], csu_fhc_winter ut w m a tf warm b)
  /\ (supplied (a KDZ) = true -> used a ut KT = true -> (n <= 6)%nat ->
        exists files, call true n = (files, snd (call false n))
         /\ map fst files = map (plot_path "./" b) (seq 0 n))
  /\ (supplied (a KDZ) = true -> used a ut KT = true ->
        exists files, call true 7%nat = (files, Raise IndexError)
         /\ map fst files = map (plot_path "./" b) (seq 0 6))
  /\ (supplied (a KDZ) = true -> used a ut KT = false ->
        call true 7%nat = ([], Raise TypeError)).
Proof.
  intro call. unfold call.
  assert (Z : csu_fhc_winter_io ut w m a false n tf warm b = ([], csu_fhc_winter ut w m a tf warm b)).
  { unfold csu_fhc_winter_io. destruct (supplied (a KDZ)) eqn:E; [now apply io_off|].
    rewrite io_no_dz by auto. unfold csu_fhc_winter.
    replace (fhc_vars a KDZ) with (supplied (a KDZ)) by (unfold fhc_vars; destruct (a KDZ); auto).
    now rewrite E. }
  split; [exact Z|]. unfold csu_fhc_winter_io in *. split; [|split].
  - intros E T L. simpl in T. apply andb_true_iff in T as (T & ->).
    rewrite Z. apply (io_on Winter); auto.
  - intros E T. simpl in T. apply andb_true_iff in T as (T & ->).
    destruct (C92_too_many_species Winter tf b "./" 7) as (f & K & N); [simpl; lia|].
    exists f. split; auto. unfold fhc_io.
    replace (fhc_vars a KDZ) with (supplied (a KDZ)) by (unfold fhc_vars; destruct (a KDZ); auto).
    replace (fhc_vars a KT) with (supplied (a KT)) by (unfold fhc_vars; destruct (a KT); auto).
    rewrite E, T. cbn [negb]. rewrite K. reflexivity.
  - intros; apply io_no_T; auto; lia.
Qed.

(** csu_fhc_cold_newml1 likewise, for its two classes. *)
Theorem C92_melting_layer ut w m (a : fields F) n tf b :
  let call pf := csu_fhc_cold_newml1_io ut w m a pf n tf b in
  call false = ([], csu_fhc_cold_newml1 ut w m a n tf b)
  /\ (supplied (a KDZ) = true -> used a ut KT = true -> (n <= 2)%nat ->
        exists files, call true = (files, snd (call false))
         /\ map fst files = map (plot_path "./" b) (seq 0 n))
  /\ (supplied (a KDZ) = true -> used a ut KT = false -> (0 < n)%nat ->
        call true = ([], Raise TypeError)).
Proof.
  intro call. unfold call, csu_fhc_cold_newml1_io.
  assert (Z : csu_fhc_cold_newml1_io ut w m a false n tf b = ([], csu_fhc_cold_newml1 ut w m a n tf b)).
  { unfold csu_fhc_cold_newml1_io. destruct (supplied (a KDZ)) eqn:E; [now apply io_off|].
    rewrite io_no_dz by auto. unfold csu_fhc_cold_newml1.
    replace (fhc_vars a KDZ) with (supplied (a KDZ)) by (unfold fhc_vars; destruct (a KDZ); auto).
    now rewrite E. }
  split; [exact Z|]. unfold csu_fhc_cold_newml1_io in *. split.
  - intros E T L. simpl in T. apply andb_true_iff in T as (T & ->).
    rewrite Z. apply (io_on Melt); auto.
  - intros; now apply io_no_T.
Qed.

(** ** C93: what is in the directory afterwards *)
Lemma saved_none d (w : list (string * figure F)) q : ~ In q (map fst w) -> saved d w q = d q.
Proof.
  revert d; induction w as [|(p, f) r IH]; intros d N; [reflexivity|]. simpl in *.
  rewrite IH by tauto. destruct (String.eqb_spec p q); auto. tauto.
Qed.
Lemma saved_agree d d' (w : list (string * figure F)) q :
  In q (map fst w) \/ d q = d' q -> saved d w q = saved d' w q.
Proof.
  revert d d'; induction w as [|(p, f) r IH]; intros d d' Hq; simpl in *; [tauto|].
  apply IH. destruct (String.eqb_spec p q); [now right|]. tauto.
Qed.
Lemma saved_app d (w w' : list (string * figure F)) : saved d (w ++ w') = saved (saved d w) w'.
Proof. revert d; induction w as [|(p, f) r IH]; intro d; simpl; auto. Qed.

(** A second run with at least as many species into the same directory for the
    same band replaces every file of the first, whatever season or temp_factor
    either was for: the directory is as if the first run had not happened. *)
Theorem C93_same_names_overwritten (d : disk F) s s' tf tf' b pdir n n' w w' o o' :
  (n <= classes s)%nat -> (n <= n')%nat -> (n' <= classes s')%nat ->
  get_mbf_sets s true true n tf b pdir = (w, o) ->
  get_mbf_sets s' true true n' tf' b pdir = (w', o') ->
  forall q, saved d (w ++ w') q = saved d w' q.
Proof.
  intros L1 L2 L3 E E' q. rewrite get_mbf_ok in E by lia. rewrite get_mbf_ok in E' by lia.
  injection E as <- <-. injection E' as <- <-. rewrite saved_app. apply saved_agree.
  destruct (in_dec string_dec q (map fst (the_files s tf b pdir n))) as [I|I].
  - left. unfold the_files in *. rewrite map_map in *. cbn [fst] in *.
    apply in_map_iff in I as (i & <- & Hi). apply in_map_iff. exists i. split; auto.
    apply in_seq in Hi. apply in_seq. lia.
  - right. now apply saved_none.
Qed.

End Generic.

(** ** Names do not collide otherwise *)
Lemma append_inj (p x y : string) : (p ++ x = p ++ y)%string -> x = y.
Proof. induction p; simpl; auto. intro E. injection E as E. auto. Qed.

(** Files of different species or of different bands have different names. *)
Theorem C93_names_distinct pdir b b' i i' : (i < 10)%nat -> (i' < 10)%nat ->
  plot_path pdir b i = plot_path pdir b' i' -> b = b' /\ i = i'.
Proof.
  intros Li Li' E. unfold plot_path in E. apply append_inj in E.
  do 10 (destruct i as [|i]; [do 10 (destruct i' as [|i']; [destruct b, b'; try discriminate E; auto|]); lia|]).
  lia.
Qed.

(** So runs for different bands leave each other's files alone. *)
Theorem C93_bands_kept_apart {F} `{FloatOps F} (d : disk F) s s' tf tf' b b' pdir n n' w w' o o' : b <> b' ->
  (n <= classes s)%nat -> (n' <= classes s')%nat ->
  get_mbf_sets s true true n tf b pdir = (w, o) ->
  get_mbf_sets s' true true n' tf' b' pdir = (w', o') ->
  forall q, In q (map fst w) -> saved d (w ++ w') q = saved d w q /\ saved d w q <> None.
Proof.
  intros Nb L L' E E' q Hq. rewrite get_mbf_ok in E by lia. rewrite get_mbf_ok in E' by lia.
  injection E as <- <-. injection E' as <- <-. rewrite saved_app. split.
  - apply saved_none. intro I. unfold the_files in *. rewrite map_map in *. cbn [fst] in *.
    apply in_map_iff in I as (i & Ei & Hi). apply in_map_iff in Hq as (j & Ej & Hj).
    apply in_seq in Hi, Hj. apply Nb. destruct (C93_names_distinct pdir b b' j i); auto.
    + destruct s; simpl in L; lia.
    + destruct s'; simpl in L'; lia.
    + congruence.
  - remember (the_files s tf b pdir n) as w eqn:Ew. clear Ew.
    revert d; induction w as [|(p, f) r IH]; intros d; simpl in *; [tauto|].
    destruct (in_dec string_dec q (map fst r)) as [I|I]; [now apply IH|].
    destruct Hq as [-> |]; [|tauto]. rewrite saved_none by auto. rewrite String.eqb_refl. discriminate.
Qed.

(** ** The curves, in exact arithmetic *)
Lemma dummy_grid k : @dummy xr _ k = map Fin (grid_points k).
Proof.
  unfold dummy, axis, axis0, grid_points, grid. destruct k; rewrite map_map; apply map_ext; intro j;
    rewrite ?lit_fin; cbn [Qnum Qden inject_Z]; rewrite fdiv_fin by lra; rewrite ?fadd_fin; f_equal;
    rewrite INR_IZR_INZ; lra.
Qed.

Lemma fdiv_nan (x : xr) : fdiv NaN x = NaN.
Proof. destruct x; reflexivity. Qed.

Lemma hid_beta_fin x a b m : a <> 0 -> 0 < b ->
  hid_beta (Fin x) (Fin a) (Fin b) (Fin m) = Fin (beta_spec m a b x).
Proof.
  intros Ha Hb. unfold hid_beta. rewrite fsub_fin, fdiv_fin by auto.
  change (@fpow xr _) with xpow. change (@flit xr _ 2) with (xlit 2).
  rewrite xpow_sq, xpow_pow0; auto; [|rewrite <- Rsqr_pow2; apply Rle_0_sqr].
  rewrite !lit_int, fadd_fin. rewrite fdiv_fin; [reflexivity|].
  pose proof (pow0_nonneg (((x - m) / a) ^ 2) b). lra.
Qed.
Lemma hid_beta_nan x b m : b <> 0 -> hid_beta x NaN (Fin b) m = NaN.
Proof.
  intro Hb. unfold hid_beta.
  assert (fdiv (fsub x m) NaN = NaN) as -> by (destruct (fsub x m); reflexivity).
  change (@fpow xr _) with xpow. change (@flit xr _ 2) with (xlit 2).
  assert (xpow NaN (xlit 2) = NaN) as ->.
  { change (xlit 2) with (@flit xr _ 2). rewrite lit_int. simpl. destruct Req_EM_T; [lra|reflexivity]. }
  assert (xpow NaN (Fin b) = NaN) as -> by (simpl; destruct Req_EM_T; [contradiction|reflexivity]).
  rewrite !lit_int. reflexivity.
Qed.

Definition nan_row (r : row) : bool :=
  match r with (_, None, Some b) => (0 <? Qnum b)%Z | _ => false end.
Lemma winter_nan_tables b k : no_params Winter k = true ->
  forallb nan_row (csv Winter b k) = true.
Proof. destruct b, k; intro E; try discriminate E; vm_compute; reflexivity. Qed.

Lemma good_table s b k : no_params s k = false -> wf_table (classes s) (csv s b k) = true.
Proof.
  destruct s; intro E; [apply summer_tables| |apply melt_tables].
  apply winter_tables. destruct k; try discriminate E; simpl; auto 10.
Qed.

Lemma example_curve s b tf i k : (i < classes s)%nat -> 0 < tf ->
  get_beta_example k (get_sets s true (Fin tf) b k) i = Ok (map (curve s b tf i k) (grid_points k)).
Proof.
  intros L Ht. unfold curve.
  assert (K : exists t, 0 < t /\ get_sets s true (Fin tf) b k = Some (get_beta_set (csv s b k) (Fin t))
     /\ t = match k with KT => tf | _ => 1 end).
  { destruct k; try (exists 1; split; [lra|]; split; [unfold get_sets; rewrite lit_1; reflexivity|auto]).
    exists tf. auto. }
  destruct K as (t & Tp & -> & Et). unfold get_beta_example, get_beta_set. cbn [sm sa sb].
  destruct (no_params s k) eqn:Np.
  - assert (s = Winter) as -> by (destruct s, k; auto; discriminate).
    pose proof (winter_nan_tables b k Np) as W. rewrite forallb_forall in W.
    destruct (nth_error_map_some (csv Winter b k) (i:=i)) as (r & Er); [rewrite csv_len; auto|].
    specialize (W r (nth_error_In _ _ Er)). destruct r as ((om, oa), ob). unfold nan_row in W.
    destruct oa; [discriminate|]. destruct ob as [qb|]; [|discriminate]. apply Z.ltb_lt in W.
    unfold idx. rewrite !map_nth_error', Er. cbn [option_map fst snd bind].
    rewrite dummy_grid, map_map. f_equal. apply map_ext. intro x.
    change (@cell xr _ None) with NaN. rewrite fdiv_nan, cell_q, fdiv_fin by lra. apply hid_beta_nan.
    assert (0 < Q2R qb). { unfold Q2R. apply Rmult_lt_0_compat; [now apply IZR_lt|apply Rinv_0_lt_compat; now apply IZR_lt]. }
    apply Rgt_not_eq. apply Rdiv_lt_0_compat; lra.
  - destruct (wf_table_nth _ _ _ (good_table s b k Np) L) as (m & a & bb & E & Ha & Hb).
    unfold idx. rewrite !map_nth_error', E. cbn [option_map fst snd bind].
    rewrite dummy_grid, map_map. f_equal. apply map_ext. intro x.
    rewrite !cell_q, !fdiv_fin by lra. rewrite hid_beta_fin.
    + unfold membership, params. rewrite E. subst t. destruct k; unfold beta_val; try reflexivity;
      replace (Q2R m / 1) with (Q2R m) by field; replace (Q2R a / 1) with (Q2R a) by field;
      replace (Q2R bb / 1) with (Q2R bb) by field; reflexivity.
    + apply Rgt_not_eq. apply Rdiv_lt_0_compat; lra.
    + apply Rdiv_lt_0_compat; lra.
Qed.

(** The curve in each panel of the i-th file is the membership function the
    classifier uses for class i and that variable, sampled at the grid points (NaN
    throughout for RHOHV and LDR in winter, whose tables are empty). *)
Theorem C92_curves_are_the_memberships s tf b pdir n w o i p f : (n <= classes s)%nat -> 0 < tf ->
  get_mbf_sets s true true n (Fin tf) b pdir = (w, o) -> nth_error w i = Some (p, f) ->
  p = plot_path pdir b i /\
  fig_panels f = map (fun tk => (fst tk, map Fin (grid_points (snd tk)),
                                 map (curve s b tf i (snd tk)) (grid_points (snd tk)))) panels.
Proof.
  intros L Ht E Ei. rewrite get_mbf_ok in E by auto. injection E as <- <-.
  assert (Hi : (i < n)%nat).
  { rewrite <- (seq_length n 0). rewrite <- (map_length (fun i => (plot_path pdir b i, the_fig s (Fin tf) b i)) (seq 0 n)).
    apply nth_error_Some. unfold the_files in Ei. congruence. }
  unfold the_files in Ei. rewrite map_nth_error' in Ei.
  rewrite (nth_error_nth' (seq 0 n) O) in Ei by (rewrite seq_length; auto).
  rewrite seq_nth in Ei by auto. cbn [option_map Nat.add] in Ei.
  assert (P : p = plot_path pdir b i) by congruence. assert (Q : f = the_fig s (Fin tf) b i) by congruence.
  clear Ei. subst. split; auto. unfold the_fig. cbn [fig_panels]. apply map_ext. intros (t, k). cbn [fst snd].
  rewrite example_curve by (assumption || lia). rewrite dummy_grid. reflexivity.
Qed.

(** ** The hypotheses are met *)
Example ex92_files : map (plot_path "./" BC) (seq 0 3)
  = ["./Drizzle_beta_C.png"; "./Rain_beta_C.png"; "./Ice_Crystals_beta_C.png"]%string.
Proof. reflexivity. Qed.

Definition ex92_args : fields xr := fun k => match k with KDZ | KT => AScalar DFloat (Fin 30) | _ => ANone end.
(** a summer call with reflectivity and temperature meets the hypotheses of C92_summer *)
Example ex92_summer (w : key -> xr) : exists files,
  csu_fhc_summer_io true w "hybrid" ex92_args true false 10 (Fin 1) BS true
    = (files, csu_fhc_summer true w "hybrid" ex92_args false 10 (Fin 1) BS true)
  /\ length files = 10%nat
  /\ nth_error (map fst files) 8 = Some "./Hail_beta_S.png"%string.
Proof.
  destruct (C92_summer true w "hybrid" ex92_args false 10 (Fin 1) BS true) as (Z & _ & K & _).
  destruct (K eq_refl eq_refl (le_n _)) as (files & E & N). exists files.
  rewrite Z in E. split; [exact E|]. split.
  - rewrite <- (map_length fst), N. reflexivity.
  - rewrite N. reflexivity.
Qed.
(** winter curves saved before a summer run of the same band are gone afterwards:
    Rain_beta_S.png then holds the summer rain curves, not those of winter class 2 (plates) *)
Example ex93 (d : disk xr) : exists w w' o o',
  get_mbf_sets Winter true true 6 (Fin 1) BS "./" = (w, o) /\
  get_mbf_sets Summer true true 10 (Fin 1) BS "./" = (w', o') /\
  In "./Rain_beta_S.png"%string (map fst w) /\
  saved d (w ++ w') "./Rain_beta_S.png"%string = saved d w' "./Rain_beta_S.png"%string.
Proof.
  do 4 eexists. split; [apply get_mbf_ok; simpl; lia|]. split; [apply get_mbf_ok; simpl; lia|]. split.
  - unfold the_files. rewrite map_map. cbn [fst]. right. left. reflexivity.
  - eapply C93_same_names_overwritten; try (apply get_mbf_ok); simpl; lia.
Qed.
