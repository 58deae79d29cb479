(** * Properties C26-C29 (and the calc_dsd parts of C11, C19): drop size distributions *)
From Coq Require Import Reals Lra Psatz.
From Verif Require Import Base.Num Base.ListFacts Base.XReal Base.XTac Base.XArith.
From Verif Require Import Model.Common Model.Dsd Spec.DsdSpec Proofs.DsdProofs.
From Verif Require Model.LiquidIce.
Open Scope R_scope.

Definition rfield (dt : dtype) (sh : list nat) (l : list R) : pyarg xr := AArr (mkarr dt sh (map Fin l)).

Lemma nth_map_some {A B} (f : A -> B) l i x :
  nth_error l i = Some x -> nth_error (map f l) i = Some (f x).
Proof. intro E; now rewrite map_nth_error', E. Qed.

(** ** C26 *)
(** S band with a method other than '2013': every gate gets exactly the
    retrieval selected by its (dz, zdr, kdp), and (0,0,0) when none is. *)
Theorem C26_dsd_2004_gate_by_gate :
  forall dt1 dt2 dt3 sh d r k meth, meth <> "2013"%string ->
  length r = length d -> length k = length d ->
  exists d0 nw mu,
    calc_dsd (rfield dt1 sh d) (rfield dt2 sh r) (rfield dt3 sh k) "S" meth = Ok (DsdArr sh d0 nw mu) /\
    length d0 = length d /\ length nw = length d /\ length mu = length d /\
    forall i x y z, nth_error d i = Some x -> nth_error r i = Some y -> nth_error k i = Some z ->
    exists p, nth_error d0 i = Some (Fin (D0 p)) /\ nth_error nw i = Some (Fin (NW p)) /\
      nth_error mu i = Some (Fin (MU p)) /\
      p = match select_2004 x y z with
          | Some M1 => m1 x y z
          | Some M2 => DP (d0_m2 y) (nw_A17 x (d0_m2 y)) 3
          | Some M3 => DP (d0_A18 x y / 10) (nw_A17 x (d0_A18 x y / 10)) 3
          | Some M4 => DP (d0_m4 x y) (nw_A17 x (d0_m4 x y)) 3
          | None => DP 0 0 0
          end.
Proof.
  intros dt1 dt2 dt3 sh d r k meth Hm Lr Lk. unfold calc_dsd, rfield. cbn [check_for_array as_array bind ashape adata].
  rewrite !shape_eqb_refl. cbn [andb negb String.eqb Ascii.eqb Bool.eqb].
  destruct (String.eqb_spec meth "2013"); [contradiction|].
  destruct (calc_dsd_sband_bringi_2004 (map Fin d) (map Fin r) (map Fin k)) as [[d0 nw] mu] eqn:E.
  cbn [bind]. exists d0, nw, mu. split; [reflexivity|].
  destruct (len_2004 (map Fin d) (map Fin r) (map Fin k)) as (A & B & C);
    [now rewrite !map_length|now rewrite !map_length|].
  rewrite E in A, B, C. rewrite map_length in A, B, C. cbn [fst snd] in A, B, C.
  repeat split; auto. intros i x y z E1 E2 E3.
  destruct (gate_2004 (map Fin d) (map Fin r) (map Fin k) i (Fin x) (Fin y) (Fin z)) as (G1 & G2 & G3);
    try now apply nth_map_some.
  rewrite E, g04_fin in G1, G2, G3. cbn [fst snd] in G1, G2, G3.
  exists (spec_2004 x y z). auto.
Qed.

Lemma method_regions :
  forall dbz zdr kdp,
  (select_2004 dbz zdr kdp = Some M1 <-> 35 <= dbz /\ 2/10 <= zdr /\ 3/10 <= kdp) /\
  (select_2004 dbz zdr kdp = Some M2 <-> kdp < 3/10 /\ 5/10 <= zdr) /\
  (select_2004 dbz zdr kdp = Some M3 <-> kdp < 3/10 /\ 2/10 <= zdr < 5/10) /\
  (select_2004 dbz zdr kdp = Some M4 <-> kdp < 3/10 /\ -5/10 <= zdr < 2/10) /\
  (select_2004 dbz zdr kdp = None <->
     (3/10 <= kdp /\ (dbz < 35 \/ zdr < 2/10)) \/ (kdp < 3/10 /\ zdr < -5/10)).
Proof.
  intros. unfold select_2004.
  destruct (Rle_dec (3/10) kdp), (Rle_dec 35 dbz), (Rle_dec (2/10) zdr), (Rle_dec (5/10) zdr),
    (Rle_dec (-5/10) zdr); repeat split; intros; try discriminate; try reflexivity; try lra;
    try (left; lra); try (right; lra); exfalso; lra.
Qed.

(** The four methods exclude each other and cover the plane up to the gates left
    at zero: the returned triple in each region, by its inequalities. *)
Theorem C26_method_regions :
  forall dt1 dt2 dt3 sh d r k meth, meth <> "2013"%string ->
  length r = length d -> length k = length d ->
  exists d0 nw mu,
    calc_dsd (rfield dt1 sh d) (rfield dt2 sh r) (rfield dt3 sh k) "S" meth = Ok (DsdArr sh d0 nw mu) /\
    forall i x y z, nth_error d i = Some x -> nth_error r i = Some y -> nth_error k i = Some z ->
    let gives p := nth_error d0 i = Some (Fin (D0 p)) /\ nth_error nw i = Some (Fin (NW p)) /\
                   nth_error mu i = Some (Fin (MU p)) in
    (35 <= x /\ 2/10 <= y /\ 3/10 <= z -> gives (m1 x y z)) /\
    (z < 3/10 /\ 5/10 <= y -> gives (DP (d0_m2 y) (nw_A17 x (d0_m2 y)) 3)) /\
    (z < 3/10 /\ 2/10 <= y < 5/10 -> gives (DP (d0_A18 x y / 10) (nw_A17 x (d0_A18 x y / 10)) 3)) /\
    (z < 3/10 /\ -5/10 <= y < 2/10 -> gives (DP (d0_m4 x y) (nw_A17 x (d0_m4 x y)) 3)) /\
    ((3/10 <= z /\ (x < 35 \/ y < 2/10)) \/ (z < 3/10 /\ y < -5/10) -> gives (DP 0 0 0)).
Proof.
  intros dt1 dt2 dt3 sh d r k meth Hm Lr Lk.
  destruct (C26_dsd_2004_gate_by_gate dt1 dt2 dt3 sh d r k meth Hm Lr Lk) as (d0 & nw & mu & E & _ & _ & _ & G).
  exists d0, nw, mu. split; [exact E|]. intros i x y z E1 E2 E3 gives.
  destruct (G i x y z E1 E2 E3) as (p & G1 & G2 & G3 & Ep).
  destruct (method_regions x y z) as (R1 & R2 & R3 & R4 & R5). unfold gives.
  repeat apply conj; intro Hr.
  - rewrite (proj2 R1 Hr) in Ep. subst p. auto.
  - rewrite (proj2 R2 Hr) in Ep. subst p. auto.
  - rewrite (proj2 R3 Hr) in Ep. subst p. auto.
  - rewrite (proj2 R4 Hr) in Ep. subst p. auto.
  - rewrite (proj2 R5 Hr) in Ep. subst p. auto.
Qed.

(** A gate whose zdr or kdp is NaN gets (0, 0, 0) (finite dz). *)
Theorem C26_nan_gate_is_zero :
  forall (dz zdr kdp : arr xr) meth, meth <> "2013"%string ->
  ashape dz = ashape zdr -> ashape dz = ashape kdp ->
  exists d0 nw mu, calc_dsd (AArr dz) (AArr zdr) (AArr kdp) "S" meth = Ok (DsdArr (ashape dz) d0 nw mu) /\
  forall i x y z, nth_error (adata dz) i = Some (Fin x) -> nth_error (adata zdr) i = Some y ->
    nth_error (adata kdp) i = Some z -> y = NaN \/ z = NaN ->
    nth_error d0 i = Some (Fin 0) /\ nth_error nw i = Some (Fin 0) /\ nth_error mu i = Some (Fin 0).
Proof.
  intros dz zdr kdp meth Hm S1 S2. unfold calc_dsd. cbn [check_for_array as_array bind].
  rewrite <- S1, <- S2, !shape_eqb_refl. cbn [andb negb String.eqb Ascii.eqb Bool.eqb].
  destruct (String.eqb_spec meth "2013"); [contradiction|].
  destruct (calc_dsd_sband_bringi_2004 (adata dz) (adata zdr) (adata kdp)) as [[d0 nw] mu] eqn:E.
  cbn [bind]. exists d0, nw, mu. split; [reflexivity|]. intros i x y z E1 E2 E3 HN.
  destruct (gate_2004 _ _ _ _ _ _ _ E1 E2 E3) as (G1 & G2 & G3).
  rewrite E in G1, G2, G3. cbn [fst snd] in G1, G2, G3.
  assert (Z : g04 (Fin x) y z = (Fin 0, Fin 0, Fin 0)).
  { assert (E0 : fmul (flit 0) (Fin x) = Fin 0) by (rewrite (lit_int 0), fmul_fin; f_equal; ring).
    unfold g04. rewrite E0.
    assert (N1 : forall q, flt NaN (@flit xr _ q) = false) by reflexivity.
    assert (N2 : forall q, fle (@flit xr _ q) NaN = false) by reflexivity.
    destruct HN as [-> | ->]; rewrite !N1, !N2, ?andb_false_r; reflexivity. }
  rewrite Z in G1, G2, G3. auto.
Qed.

(** ** C27 *)
Theorem C27_default_S_band_is_2013 :
  forall dt1 dt2 dt3 sh d r k, length r = length d -> length k = length d ->
  exists d0 nw mu,
    calc_dsd (rfield dt1 sh d) (rfield dt2 sh r) (rfield dt3 sh k) "S" "2013" = Ok (DsdArr sh d0 nw mu) /\
    length d0 = length d /\ length nw = length d /\ length mu = length d /\
    forall i x y, nth_error d i = Some x -> nth_error r i = Some y ->
      nth_error d0 i = Some (Fin (d0_2013 y)) /\ 0 < d0_2013 y /\
      nth_error nw i = Some (Fin (1976/100 * linZ x / Rpower (d0_2013 y) (746/100))) /\
      nth_error mu i = Some (Fin 3).
Proof.
  intros dt1 dt2 dt3 sh d r k Lr Lk. unfold calc_dsd, rfield. cbn [check_for_array as_array bind ashape adata].
  rewrite !shape_eqb_refl. cbn [andb negb String.eqb Ascii.eqb Bool.eqb].
  destruct (calc_dsd_sband_bringi_2013 (map Fin d) (map Fin r)) as [[d0 nw] mu] eqn:E.
  cbn [bind]. exists d0, nw, mu. split; [reflexivity|].
  destruct (len_2013 (map Fin d) (map Fin r)) as (A & B & C); [now rewrite !map_length|].
  rewrite E in A, B, C. rewrite map_length in A, B, C. cbn [fst snd] in A, B, C.
  repeat split; auto. all: try apply d0_2013_pos.
  all: destruct (gate_2013 (map Fin d) (map Fin r) i (Fin x) (Fin y)) as (G1 & G2 & G3);
    try now apply nth_map_some.
  all: rewrite E in G1, G2, G3; cbn [fst snd] in G1, G2, G3; rewrite g13_fin in *.
  - auto.
  - rewrite nw13_fin in G2. auto.
  - change (flit 3) with (@DEFAULT_MU xr _) in G3. rewrite mu3_fin in G3. auto.
Qed.

Theorem C27_C_band_is_2009 :
  forall dt1 dt2 dt3 sh d r k meth, length r = length d -> length k = length d ->
  exists d0 nw mu,
    calc_dsd (rfield dt1 sh d) (rfield dt2 sh r) (rfield dt3 sh k) "C" meth = Ok (DsdArr sh d0 nw mu) /\
    length d0 = length d /\ length nw = length d /\ length mu = length d /\
    forall i x y, nth_error d i = Some x -> nth_error r i = Some y ->
      nth_error d0 i = Some (Fin (d0_2009 y)) /\ nth_error mu i = Some (Fin 3) /\
      (-5/10 <= y -> 0 < d0_2009 y /\
         nth_error nw i = Some (Fin (linZ x / (56/1000 * Rpower (d0_2009 y) (7319/1000))))) /\
      (** below -0.5 dB: zero diameter and an infinite concentration *)
      (y < -5/10 -> d0_2009 y = 0 /\ nth_error nw i = Some PInf).
Proof.
  intros dt1 dt2 dt3 sh d r k meth Lr Lk. unfold calc_dsd, rfield. cbn [check_for_array as_array bind ashape adata].
  rewrite !shape_eqb_refl. cbn [andb negb String.eqb Ascii.eqb Bool.eqb].
  destruct (calc_dsd_cband_bringi_2009 (map Fin d) (map Fin r)) as [[d0 nw] mu] eqn:E.
  cbn [bind]. exists d0, nw, mu. split; [reflexivity|].
  destruct (len_2009 (map Fin d) (map Fin r)) as (A & B & C); [now rewrite !map_length|].
  rewrite E in A, B, C. rewrite map_length in A, B, C. cbn [fst snd] in A, B, C.
  split; [auto|]. split; [auto|]. split; [auto|]. intros i x y E1 E2.
  destruct (gate_2009 (map Fin d) (map Fin r) i (Fin x) (Fin y)) as (G1 & G2 & G3);
    try now apply nth_map_some.
  rewrite E in G1, G2, G3; cbn [fst snd] in G1, G2, G3; rewrite g09_fin in *.
  split; [auto|]. split.
  - change (flit 3) with (@DEFAULT_MU xr _) in G3. rewrite mu3_fin in G3. auto.
  - split; intro Hy.
    + split; [now apply d0_2009_pos|]. rewrite nw09_fin in G2 by auto. auto.
    + split; [unfold d0_2009; destruct Rlt_dec; [auto|lra]|]. rewrite nw09_low in G2 by auto. auto.
Qed.

(** Kdp has no influence on the 2013 and 2009 retrievals, in any float
    semantics; dispatch by band and method. *)
Theorem C27_kdp_ignored {F} `{FloatOps F} :
  forall (dz zdr kdp kdp' : arr F) band meth, (band = "C" \/ meth = "2013")%string ->
  calc_dsd (AArr dz) (AArr zdr) (AArr kdp) band meth = calc_dsd (AArr dz) (AArr zdr) (AArr kdp') band meth.
Proof.
  intros dz zdr kdp kdp' band meth Hb. unfold calc_dsd. cbn [check_for_array as_array bind].
  destruct Hb as [-> | ->]; cbn [String.eqb Ascii.eqb Bool.eqb]; auto.
Qed.

(** ** C28 *)
(** The paper's A.18 is a convex combination of the method-2 and method-4
    diameters meeting them at the two ends of the interval; the code returns one
    tenth of it at every gate of the interval. *)
Theorem C28_method3_is_one_tenth_of_A18 :
  forall dt1 dt2 dt3 sh d r k meth d0 nw mu, meth <> "2013"%string ->
  length r = length d -> length k = length d ->
  calc_dsd (rfield dt1 sh d) (rfield dt2 sh r) (rfield dt3 sh k) "S" meth = Ok (DsdArr sh d0 nw mu) ->
  forall i x y z, nth_error d i = Some x -> nth_error r i = Some y -> nth_error k i = Some z ->
  z < 3/10 -> 2/10 <= y < 5/10 ->
  nth_error d0 i = Some (Fin (d0_A18 x y / 10)) /\
  (exists w, 0 <= w < 1 /\ d0_A18 x y = w * d0_m2 y + (1 - w) * d0_m4 x y) /\
  d0_A18 x (2/10) = d0_m4 x (2/10) /\ d0_A18 x (5/10) = d0_m2 (5/10).
Proof.
  intros dt1 dt2 dt3 sh d r k meth d0 nw mu Hm Lr Lk E i x y z E1 E2 E3 Hz Hy.
  destruct (C26_dsd_2004_gate_by_gate dt1 dt2 dt3 sh d r k meth Hm Lr Lk) as (d0' & nw' & mu' & E' & _ & _ & _ & G).
  rewrite E in E'. injection E' as <- <- <-.
  destruct (G i x y z E1 E2 E3) as (p & G1 & _ & _ & ->).
  rewrite (proj2 (proj1 (proj2 (proj2 (method_regions x y z))))) in G1 by (split; auto).
  split; [exact G1|]. split; [|split].
  - exists ((y - 2/10) * (10/3)). split; [lra|]. unfold d0_A18. field.
  - unfold d0_A18. field.
  - unfold d0_A18. field.
Qed.

Lemma pow10_small x : 0 <= x -> 1 - 3 * x <= Rpower 10 (- x).
Proof.
  intro Hx. assert (H : ln 10 <= 3).
  { assert (G : 10 <= exp 3).
    { pose proof (exp_ineq1_le (1/2)) as H. replace 3 with (1/2+1/2+(1/2+1/2)+(1/2+1/2)) by field.
      rewrite !exp_plus. set (e := exp (1/2)) in *. assert (9/4 <= e * e) by nra.
      assert (81/16 <= e * e * (e * e)) by nra. nra. }
    rewrite <- (ln_exp 3). destruct G as [G|G]; [left; apply ln_increasing; lra|].
    rewrite <- G. lra. }
  unfold Rpower. pose proof (exp_ineq1_le (- x * ln 10)). nra.
Qed.

(** Hence the retrieved d0 drops by more than a factor 9 when zdr rises from
    just below 0.2 dB to 0.2 dB (same reflectivity, kdp below 0.3). *)
Theorem C28_d0_jump_at_0_2 :
  forall dt1 dt2 dt3 dbz y1 kd1 kd2 meth, meth <> "2013"%string ->
  1/10 <= y1 < 2/10 -> kd1 < 3/10 -> kd2 < 3/10 ->
  exists a b nw mu,
    calc_dsd (rfield dt1 [2%nat] [dbz; dbz]) (rfield dt2 [2%nat] [y1; 2/10]) (rfield dt3 [2%nat] [kd1; kd2]) "S" meth
      = Ok (DsdArr [2%nat] [Fin a; Fin b] nw mu) /\ 0 < b /\ a > 9 * b.
Proof.
  intros dt1 dt2 dt3 dbz y1 kd1 kd2 meth Hm Hy K1 K2.
  destruct (C26_dsd_2004_gate_by_gate dt1 dt2 dt3 [2%nat] [dbz; dbz] [y1; 2/10] [kd1; kd2] meth Hm)
    as (d0 & nw & mu & E & L & _ & _ & G); auto.
  destruct (G 0%nat dbz y1 kd1) as (p & G1 & _ & _ & ->); auto.
  destruct (G 1%nat dbz (2/10) kd2) as (q & G2 & _ & _ & ->); auto.
  rewrite (proj2 (proj1 (proj2 (proj2 (proj2 (method_regions dbz y1 kd1)))))) in G1 by lra.
  rewrite (proj2 (proj1 (proj2 (proj2 (method_regions dbz (2/10) kd2))))) in G2 by lra.
  cbn [D0] in G1, G2.
  destruct d0 as [|a [|b [|]]]; try discriminate. injection G1 as ->. injection G2 as ->.
  eexists; eexists; eexists; eexists; split; [exact E|].
  replace (d0_A18 dbz (2/10)) with (d0_m4 dbz (2/10)) by (unfold d0_A18; field).
  pose proof (d0_m4_pos dbz (2/10)). split; [lra|].
  assert (R1 : d0_m4 dbz y1 = d0_m4 dbz (2/10) * Rpower 10 (- ((2/10 - y1) / 10 * (3111/1000)))).
  { unfold d0_m4, linZ. rewrite !(Rpower_mult 10). rewrite !Rmult_assoc. do 2 f_equal.
    rewrite <- Rpower_plus. f_equal. field. }
  rewrite R1. pose proof (pow10_small ((2/10 - y1) / 10 * (3111/1000))) as P.
  assert (0 <= (2/10 - y1) / 10 * (3111/1000) <= 1/30) by lra.
  specialize (P (proj1 H0)). nra.
Qed.

(** ** C29 *)
(** The stored Nw satisfies the retrieval's power law exactly and is positive. *)
Theorem C29_Nw_2013 :
  forall dt1 dt2 dt3 sh d r k d0 nw mu, length r = length d -> length k = length d ->
  calc_dsd (rfield dt1 sh d) (rfield dt2 sh r) (rfield dt3 sh k) "S" "2013" = Ok (DsdArr sh d0 nw mu) ->
  forall i x y, nth_error d i = Some x -> nth_error r i = Some y ->
  exists D N, nth_error d0 i = Some (Fin D) /\ nth_error nw i = Some (Fin N) /\
    0 < D /\ 0 < N /\ N * Rpower D (746/100) = 1976/100 * Rpower 10 (x / 10).
Proof.
  intros dt1 dt2 dt3 sh d r k d0 nw mu Lr Lk E i x y E1 E2.
  destruct (C27_default_S_band_is_2013 dt1 dt2 dt3 sh d r k Lr Lk) as (a & b & c & E' & _ & _ & _ & G).
  rewrite E in E'. injection E' as <- <- <-. destruct (G i x y E1 E2) as (G1 & G2 & G3 & _).
  do 2 eexists. split; [exact G1|]. split; [exact G3|]. split; auto.
  pose proof (linZ_pos x). pose proof (Rpower_pos (d0_2013 y) (746/100)). split.
  - apply Rdiv_lt_0_compat; auto. lra.
  - unfold linZ. field. lra.
Qed.

Theorem C29_Nw_2009 :
  forall dt1 dt2 dt3 sh d r k meth d0 nw mu, length r = length d -> length k = length d ->
  calc_dsd (rfield dt1 sh d) (rfield dt2 sh r) (rfield dt3 sh k) "C" meth = Ok (DsdArr sh d0 nw mu) ->
  forall i x y, nth_error d i = Some x -> nth_error r i = Some y -> -5/10 <= y ->
  exists D N, nth_error d0 i = Some (Fin D) /\ nth_error nw i = Some (Fin N) /\
    0 < D /\ 0 < N /\ N * (56/1000 * Rpower D (7319/1000)) = Rpower 10 (x / 10).
Proof.
  intros dt1 dt2 dt3 sh d r k meth d0 nw mu Lr Lk E i x y E1 E2 Hy.
  destruct (C27_C_band_is_2009 dt1 dt2 dt3 sh d r k meth Lr Lk) as (a & b & c & E' & _ & _ & _ & G).
  rewrite E in E'. injection E' as <- <- <-. destruct (G i x y E1 E2) as (G1 & _ & G2 & _).
  destruct (G2 Hy) as [G3 G4].
  do 2 eexists. split; [exact G1|]. split; [exact G4|]. split; auto.
  pose proof (linZ_pos x). pose proof (Rpower_pos (d0_2009 y) (7319/1000)). split.
  - apply Rdiv_lt_0_compat; auto. lra.
  - unfold linZ. field. lra.
Qed.

Theorem C29_Nw_2004 :
  forall dt1 dt2 dt3 sh d r k meth d0 nw mu, meth <> "2013"%string ->
  length r = length d -> length k = length d ->
  calc_dsd (rfield dt1 sh d) (rfield dt2 sh r) (rfield dt3 sh k) "S" meth = Ok (DsdArr sh d0 nw mu) ->
  forall i x y z, nth_error d i = Some x -> nth_error r i = Some y -> nth_error k i = Some z ->
  exists D N, nth_error d0 i = Some (Fin D) /\ nth_error nw i = Some (Fin N) /\
    (select_2004 x y z <> None -> 0 < D /\ 0 < N) /\
    (select_2004 x y z = None -> D = 0 /\ N = 0) /\
    (select_2004 x y z <> None -> select_2004 x y z <> Some M1 ->
       N * Rpower D (73529/10000) = 21 * Rpower 10 (x / 10)).
Proof.
  intros dt1 dt2 dt3 sh d r k meth d0 nw mu Hm Lr Lk E i x y z E1 E2 E3.
  destruct (C26_dsd_2004_gate_by_gate dt1 dt2 dt3 sh d r k meth Hm Lr Lk) as (a & b & c & E' & _ & _ & _ & G).
  rewrite E in E'. injection E' as <- <- <-. destruct (G i x y z E1 E2 E3) as (p & G1 & G2 & _ & Ep).
  exists (D0 p), (NW p). split; [auto|]. split; [auto|].
  assert (N : forall D, 0 < D -> 0 < nw_A17 x D /\ nw_A17 x D * Rpower D (73529/10000) = 21 * Rpower 10 (x / 10)).
  { intros D HD. pose proof (linZ_pos x). pose proof (Rpower_pos D (73529/10000)). unfold nw_A17. split.
    - apply Rdiv_lt_0_compat; auto. lra.
    - unfold linZ. field. lra. }
  destruct (method_regions x y z) as (_ & _ & [M3' _] & _).
  destruct (select_2004 x y z) as [[]|]; subst p; cbn [D0 NW].
  - split; [intros _; split|split; [discriminate|congruence]].
    + unfold m1. cbn [D0]. repeat apply Rmult_lt_0_compat; try apply Rpower_pos; lra.
    + apply Rpower_pos.
  - destruct (N _ (d0_m2_pos y)). pose proof (d0_m2_pos y). repeat split; auto; discriminate.
  - assert (P : 0 < d0_A18 x y / 10) by (pose proof (d0_A18_pos x y); destruct (M3' eq_refl); lra).
    destruct (N _ P). repeat split; auto; discriminate.
  - destruct (N _ (d0_m4_pos x y)). pose proof (d0_m4_pos x y). repeat split; auto; discriminate.
  - repeat split; auto; congruence.
Qed.

(** ** calc_dsd part of C19 *)
Theorem C19_dsd_missing_field_raises_NameError {F} `{FloatOps F} :
  forall (dz zdr kdp : pyarg F) band meth, dz = ANone \/ zdr = ANone \/ kdp = ANone ->
  calc_dsd dz zdr kdp band meth = Raise NameError.
Proof. intros dz zdr kdp band meth [-> | [-> | ->]]; unfold calc_dsd; [auto| |]; destruct dz; auto; destruct kdp; auto. Qed.

Theorem C19_dsd_unsupported_band_returns_none {F} `{FloatOps F} :
  forall (dz zdr kdp : arr F) band meth, band <> "S"%string -> band <> "C"%string ->
  ashape dz = ashape zdr -> ashape dz = ashape kdp ->
  calc_dsd (AArr dz) (AArr zdr) (AArr kdp) band meth = PyNone.
Proof.
  intros dz zdr kdp band meth HS HC S1 S2. unfold calc_dsd. cbn [check_for_array as_array bind].
  rewrite <- S1, <- S2, !shape_eqb_refl. cbn [andb negb].
  destruct (String.eqb_spec band "S"); [contradiction|].
  destruct (String.eqb_spec band "C"); [contradiction|]. reflexivity.
Qed.

(** ** calc_dsd part of C11 *)
Theorem C11_dsd_scalar_is_element_0 {F} `{FloatOps F} :
  forall dt1 dt2 dt3 (d r k : F) band meth,
  calc_dsd (AScalar dt1 d) (AScalar dt2 r) (AScalar dt3 k) band meth =
  match calc_dsd (AArr (arr1 dt1 d)) (AArr (arr1 dt2 r)) (AArr (arr1 dt3 k)) band meth with
  | Ok (DsdArr _ (a :: _) (b :: _) (c :: _)) => Ok (DsdScalar a b c)
  | x => x
  end.
Proof.
  intros. unfold calc_dsd. cbn [check_for_array as_array np_array_of bind arr1 ashape adata].
  rewrite !shape_eqb_refl. cbn [andb negb].
  destruct (String.eqb band "S"); [destruct (String.eqb meth "2013")|destruct (String.eqb band "C")];
    reflexivity.
Qed.

(** Non-vacuity: concrete gates in each region. *)
Example C26_regions_inhabited :
  select_2004 40 1 1 = Some M1 /\ select_2004 30 1 0 = Some M2 /\ select_2004 30 (3/10) 0 = Some M3 /\
  select_2004 30 0 0 = Some M4 /\ select_2004 30 1 1 = None.
Proof.
  unfold select_2004.
  repeat split; repeat (destruct Rle_dec; try lra); reflexivity.
Qed.
