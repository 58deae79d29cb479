(** * Properties C58, C61, C76: zdp, hdr, functions that always fail, attenuation *)
From Coq Require Import Reals Lra Lia.
From Verif Require Import Base.Num Base.ListFacts Base.Pointwise Base.XReal Base.XTac Base.XArith.
From Verif Require Import Model.Common Model.Fundamentals Spec.FundSpec Proofs.FundReal.
Open Scope R_scope.

Section Lists.
Context {F : Type} `{FloatOps F}.
Lemma zdp_at (dt : dtype) (h v : list F) i x y : length h = length v ->
  nth_error h i = Some x -> nth_error v i = Some y ->
  nth_error (mset (map2 (fun h v => flt v h) h v)
               (map2 (fun h v => cast dt (fmul (flit 10) (flog10 (fsub h v)))) h v)
               (map (fun _ => cast dt fnan) h)) i
  = Some (cast dt (if flt y x then fmul (flit 10) (flog10 (fsub x y)) else fnan)).
Proof.
  unfold mset, map3. revert v i; induction h as [|a h IH]; intros [|b v] [|i] L E1 E2; simpl in *; try discriminate.
  - injection E1 as ->. injection E2 as ->. destruct (flt y x); reflexivity.
  - eapply IH; eauto.
Qed.
Lemma hdr_at (dt : dtype) (z : list F) i x : nth_error z i = Some x ->
  nth_error (hdr_ref dt z) i =
  Some (cast dt (if flt (flit 1.74) x then flit 60
                 else if flt (flit 0) x && fle x (flit 1.74) then fadd (fmul (flit 19) x) (flit 27)
                 else if fle x (flit 0) then flit 27 else fnan)).
Proof.
  unfold hdr_ref, mset, map3, msetc. revert i; induction z as [|a z IH]; intros [|i] E; simpl in *; try discriminate.
  - injection E as ->.
    destruct (flt (flit 1.74) x), (flt (flit 0) x && fle x (flit 1.74)), (fle x (flit 0)); reflexivity.
  - eapply IH; eauto.
Qed.
Lemma hdr_len (dt : dtype) (z : list F) : length (hdr_ref dt z) = length z.
Proof. unfold hdr_ref, mset, map3, msetc. induction z; simpl; auto. Qed.
Lemma zdp_len (dt : dtype) (h v : list F) : length h = length v ->
  length (mset (map2 (fun h v => flt v h) h v)
               (map2 (fun h v => cast dt (fmul (flit 10) (flog10 (fsub h v)))) h v)
               (map (fun _ => cast dt fnan) h)) = length h.
Proof.
  unfold mset, map3. revert v; induction h as [|a h IH]; intros [|b v] L; simpl in *; try discriminate; auto.
Qed.
Lemma map2_at {A B C} (f : A -> B -> C) a b i x y :
  nth_error a i = Some x -> nth_error b i = Some y -> nth_error (map2 f a b) i = Some (f x y).
Proof.
  revert b i; induction a; intros [|] [|i] E1 E2; simpl in *; try discriminate; auto. congruence.
Qed.

(** ** C58 *)
(** zdp on two arrays of one shape: elementwise, 10 log10(zh - zv) where zh > zv
    and NaN elsewhere (also where either is NaN); an integer zh array stores
    the value truncated to an integer. *)
Theorem C58_zdp : forall (dt dt' : dtype) (n : nat) (sh : list nat) (h v : list F),
  length h = length v ->
  exists out, zdp (AArr (mkarr dt (n :: sh) h)) (AArr (mkarr dt' (n :: sh) v)) = Ok (n :: sh, out) /\
    length out = length h /\
    forall i x y, nth_error h i = Some x -> nth_error v i = Some y ->
      nth_error out i =
      Some (cast dt (if flt y x then fmul (flit 10) (flog10 (fsub x y)) else fnan)).
Proof.
  intros dt dt' n sh h v L. unfold zdp, atleast_1d, alen. cbn [ashape adt adata bind].
  rewrite Nat.eqb_refl. unfold shape_eqb. destruct list_eq_dec; [|contradiction]. cbn [negb].
  eexists. split; [reflexivity|]. split; [now apply zdp_len|]. intros. now apply zdp_at.
Qed.
(** numbers are treated as one-element arrays, and the result is an array *)
Theorem C58_zdp_scalar : forall d d' (x y : F),
  zdp (AScalar d x) (AScalar d' y) =
  Ok ([1%nat], [cast d (if flt y x then fmul (flit 10) (flog10 (fsub x y)) else fnan)]).
Proof. intros. unfold zdp. cbn. destruct (flt y x); reflexivity. Qed.
(** a zero-dimensional array is treated as an array of one element, in either
    place, and the result has that shape *)
Theorem C58_zdp_zero_dimensional : forall dt dt' (x y : F) (b : pyarg F),
  zdp (AArr (mkarr dt [] [x])) b = zdp (AArr (mkarr dt [1%nat] [x])) b /\
  zdp b (AArr (mkarr dt' [] [y])) = zdp b (AArr (mkarr dt' [1%nat] [y])) /\
  zdp (AArr (mkarr dt [] [x])) (AArr (mkarr dt' [] [y])) =
    Ok ([1%nat], [cast dt (if flt y x then fmul (flit 10) (flog10 (fsub x y)) else fnan)]).
Proof.
  intros. split; [reflexivity|]. split; [reflexivity|].
  unfold zdp. cbn. destruct (flt y x); reflexivity.
Qed.
(** different lengths raise ValueError *)
Theorem C58_zdp_lengths : forall dt dt' n m sh sh' (h v : list F), n <> m ->
  zdp (AArr (mkarr dt (n :: sh) h)) (AArr (mkarr dt' (m :: sh') v)) = Raise ValueError.
Proof.
  intros. unfold zdp, atleast_1d, alen. cbn [ashape adt adata bind].
  destruct (Nat.eqb_spec n m); [contradiction|reflexivity].
Qed.
Theorem C58_zdp_number_with_array : forall d dt n sh (x : F) (v : list F), n <> 1%nat ->
  zdp (AScalar d x) (AArr (mkarr dt (n :: sh) v)) = Raise ValueError /\
  zdp (AArr (mkarr dt (n :: sh) v)) (AScalar d x) = Raise ValueError.
Proof.
  intros. unfold zdp, atleast_1d, alen. cbn [ashape adt adata bind arr1].
  destruct (Nat.eqb_spec n 1); [contradiction|]. destruct (Nat.eqb_spec 1 n); [congruence|]. auto.
Qed.

(** hdr subtracts the reference of the same gate from the reflectivity (a number
    or an array of the same shape).  [hdr_level] is the reference for one zdr. *)
Definition hdr_level (x : F) : F :=
  if flt (flit 1.74) x then flit 60
  else if flt (flit 0) x && fle x (flit 1.74) then fadd (fmul (flit 19) x) (flit 27)
  else if fle x (flit 0) then flit 27 else fnan.
Theorem C58_hdr : forall (dt : dtype) (n : nat) (sh : list nat) (z d : list F),
  length d = length z ->
  exists out, hdr (NA (n :: sh) d) (AArr (mkarr dt (n :: sh) z)) = Ok (NA (n :: sh) out) /\
    length out = length z /\
    forall i x y, nth_error z i = Some x -> nth_error d i = Some y ->
      nth_error out i = Some (fsub y (cast dt (hdr_level x))).
Proof.
  intros dt n sh z d L. unfold hdr, atleast_1d. cbn [ashape adt adata bind nd2].
  unfold shape_eqb. destruct list_eq_dec; [|contradiction].
  eexists. split; [reflexivity|]. split.
  - assert (L2 : length (hdr_ref dt z) = length d) by (rewrite hdr_len; auto).
    rewrite <- L. clear -L2. revert L2. generalize (hdr_ref dt z). induction d; intros [|] E; simpl in *; try discriminate; auto.
  - intros i x y Hz Hd. apply map2_at; auto. now apply hdr_at.
Qed.
Theorem C58_hdr_number : forall (dt : dtype) (n : nat) (sh : list nat) (z : list F) (d : F),
  exists out, hdr (NS d) (AArr (mkarr dt (n :: sh) z)) = Ok (NA (n :: sh) out) /\
    forall i x, nth_error z i = Some x -> nth_error out i = Some (fsub d (cast dt (hdr_level x))).
Proof.
  intros. unfold hdr, atleast_1d. cbn [ashape adt adata bind nd2]. eexists. split; [reflexivity|].
  intros i x Hx. apply map_nth_error. now apply hdr_at.
Qed.
(** a zero-dimensional zdr likewise: the result is a one-element array *)
Theorem C58_hdr_zero_dimensional : forall dt (d : nd F) (x y : F),
  hdr d (AArr (mkarr dt [] [x])) = hdr d (AArr (mkarr dt [1%nat] [x])) /\
  hdr (NS y) (AArr (mkarr dt [] [x])) = Ok (NA [1%nat] [fsub y (cast dt (hdr_level x))]).
Proof.
  intros. split; [reflexivity|]. destruct (C58_hdr_number dt 1 [] [x] y) as (out & E & G).
  change (hdr (NS y) (AArr (mkarr dt [] [x]))) with (hdr (NS y) (AArr (mkarr dt [1%nat] [x]))).
  rewrite E. assert (L : length out = 1%nat).
  { revert E. unfold hdr, atleast_1d. cbn [ashape adt adata bind nd2]. intro E. injection E as <-. reflexivity. }
  destruct out as [|o [|]]; try discriminate. specialize (G 0%nat x eq_refl). injection G as ->. reflexivity.
Qed.
End Lists.

Lemma lit_174 : @flit xr _ 1.74%Q = Fin 1.74. Proof. rewrite lit_fin. reflexivity. Qed.
(** The reference level over the reals: 27 dBZ up to zdr = 0, then 19 zdr + 27 up
    to 1.74 dB inclusive, then 60; NaN for NaN. *)
Lemma hdr_level_real : forall z,
  hdr_level (Fin z) = Fin (if Rle_dec z 0 then 27 else if Rle_dec z 1.74 then 19 * z + 27 else 60).
Proof.
  intro z. unfold hdr_level. rewrite lit_174, !lit_int, !flt_fin, !fle_fin, fmul_fin, fadd_fin.
  destruct (Rltb_spec 1.74 z), (Rltb_spec 0 z), (Rleb_spec z 1.74), (Rleb_spec z 0);
    destruct (Rle_dec z 0), (Rle_dec z 1.74); try lra; reflexivity.
Qed.
Theorem C58_hdr_real : forall (n : nat) (sh : list nat) (z d : list xr) out i x y,
  length d = length z ->
  hdr (NA (n :: sh) d) (AArr (mkarr DFloat (n :: sh) z)) = Ok (NA (n :: sh) out) ->
  nth_error d i = Some (Fin y) ->
  (nth_error z i = Some (Fin x) ->
     nth_error out i = Some (Fin (y - (if Rle_dec x 0 then 27 else if Rle_dec x 1.74 then 19 * x + 27 else 60)))) /\
  (nth_error z i = Some NaN -> nth_error out i = Some NaN).
Proof.
  intros n sh z d out i x y L E Hd. destruct (C58_hdr DFloat n sh z d L) as (o & E' & _ & G).
  assert (o = out) as -> by congruence. split; intro Hz; rewrite (G _ _ _ Hz Hd); cbn [cast].
  - now rewrite hdr_level_real, fsub_fin.
  - reflexivity.
Qed.
(** Non-increasing in zdr up to 1.74 dB for a fixed reflectivity, but it then rises
    by 0.06: hdr is not monotone. *)
Theorem C58_hdr_monotone_below : forall (n : nat) (sh : list nat) (z d : list xr) out i j a b y,
  length d = length z ->
  hdr (NA (n :: sh) d) (AArr (mkarr DFloat (n :: sh) z)) = Ok (NA (n :: sh) out) ->
  nth_error d i = Some (Fin y) -> nth_error d j = Some (Fin y) ->
  nth_error z i = Some (Fin a) -> nth_error z j = Some (Fin b) -> a <= b ->
  exists u v, nth_error out i = Some (Fin u) /\ nth_error out j = Some (Fin v) /\
    (b <= 1.74 -> y - 60.06 <= v <= u /\ u <= y - 27) /\
    (a = 1.74 -> 1.74 < b -> v = u + 0.06).
Proof.
  intros n sh z d out i j a b y L E D1 D2 Z1 Z2 Hab.
  destruct (C58_hdr_real n sh z d out i a y L E D1) as (G1 & _). destruct (C58_hdr_real n sh z d out j b y L E D2) as (G2 & _).
  do 2 eexists. split; [auto|]. split; [auto|]. split; intros; repeat destruct Rle_dec; lra.
Qed.
(** integer zdr arrays lose nothing: the reference is an integer there *)
Lemma hdr_integer : forall n : Z,
  cast DInt (hdr_level (Fin (IZR n))) = hdr_level (Fin (IZR n)).
Proof.
  intro n. rewrite hdr_level_real.
  assert (E : forall k : Z, cast DInt (Fin (IZR k)) = Fin (IZR k)).
  { intro k. simpl. f_equal. unfold Rtrunc. destruct Rle_dec.
    - now rewrite Int_part_IZR.
    - rewrite <- (opp_IZR k), Int_part_IZR, opp_IZR. ring. }
  destruct Rle_dec; [apply (E 27%Z)|]. destruct Rle_dec; [|apply (E 60%Z)].
  rewrite <- mult_IZR, <- plus_IZR. apply E.
Qed.
Theorem C58_hdr_integer_zdr : forall (n : nat) (sh : list nat) (z : list Z) (d : list xr),
  length d = length z ->
  hdr (NA (n :: sh) d) (AArr (mkarr DInt (n :: sh) (map (fun k => Fin (IZR k)) z)))
  = hdr (NA (n :: sh) d) (AArr (mkarr DFloat (n :: sh) (map (fun k => Fin (IZR k)) z))).
Proof.
  intros n sh z d L.
  destruct (C58_hdr DInt n sh (map (fun k => Fin (IZR k)) z) d ltac:(now rewrite map_length)) as (o & E & L1 & G).
  destruct (C58_hdr DFloat n sh (map (fun k => Fin (IZR k)) z) d ltac:(now rewrite map_length)) as (o' & E' & L2 & G').
  rewrite E, E'. do 2 f_equal. apply nth_error_ext. intro i. rewrite map_length in L1, L2.
  destruct (lt_dec i (length z)) as [Hi|Hi].
  - destruct (nth_error_map_some z Hi) as (k & Hk). destruct (nth_error_map_some d (i := i)) as (y & Hy); [lia|].
    assert (Hz : nth_error (map (fun k => Fin (IZR k)) z) i = Some (Fin (IZR k))) by now rewrite map_nth_error', Hk.
    now rewrite (G _ _ _ Hz Hy), (G' _ _ _ Hz Hy), hdr_integer.
  - rewrite !(proj2 (nth_error_None _ i)); auto; lia.
Qed.
(** but integer zh arrays do: zh = 3, zv = 1 gives 3 instead of 3.0103 dB *)
Theorem C58_zdp_integer_truncates :
  zdp (AArr (mkarr DInt [1%nat] [Fin 3])) (AArr (mkarr DInt [1%nat] [Fin 1])) = Ok ([1%nat], [Fin 3]) /\
  exists v, zdp (AArr (mkarr DFloat [1%nat] [Fin 3])) (AArr (mkarr DFloat [1%nat] [Fin 1])) = Ok ([1%nat], [Fin v]) /\
    3.01 < v < 3.02.
Proof.
  assert (V : 3.01 < 10 * (ln 2 / ln 10) < 3.02).
  { pose proof ln10_pos as Hl. assert (Hi : 0 < / ln 10) by now apply Rinv_0_lt_compat.
    assert (P : forall p q : nat, (2 ^ p < 10 ^ q -> INR p * ln 2 < INR q * ln 10)).
    { intros p q L. rewrite <- !ln_pow by lra. apply ln_increasing; auto. apply pow_lt; lra. }
    assert (Q : forall p q : nat, (10 ^ q < 2 ^ p -> INR q * ln 10 < INR p * ln 2)).
    { intros p q L. rewrite <- !ln_pow by lra. apply ln_increasing; auto. apply pow_lt; lra. }
    (* 10^301 < 2^1000 ; 2^1000 < 10^302 *)
    assert (Q1 : 301 * ln 10 < 1000 * ln 2).
    { replace 301 with (INR 301) by (rewrite INR_IZR_INZ; reflexivity).
      replace 1000 with (INR 1000) by (rewrite INR_IZR_INZ; reflexivity). apply Q.
      rewrite !pow_IZR. apply IZR_lt. vm_compute. reflexivity. }
    assert (P1 : 1000 * ln 2 < 302 * ln 10).
    { replace 302 with (INR 302) by (rewrite INR_IZR_INZ; reflexivity).
      replace 1000 with (INR 1000) by (rewrite INR_IZR_INZ; reflexivity). apply P.
      rewrite !pow_IZR. apply IZR_lt. vm_compute. reflexivity. }
    split.
    - apply (Rmult_lt_reg_r (ln 10)); auto. unfold Rdiv.
      replace (10 * (ln 2 * / ln 10) * ln 10) with (10 * ln 2) by (field; lra). lra.
    - apply (Rmult_lt_reg_r (ln 10)); auto. unfold Rdiv.
      replace (10 * (ln 2 * / ln 10) * ln 10) with (10 * ln 2) by (field; lra). lra. }
  assert (E : fmul (@flit xr _ 10) (flog10 (fsub (Fin 3) (Fin 1))) = Fin (10 * (ln 2 / ln 10))).
  { rewrite fsub_fin. replace (3 - 1) with 2 by lra. now rewrite flog10_fin, lit_int, fmul_fin by lra. }
  destruct (C58_zdp DInt DInt 1 [] [Fin 3] [Fin 1] eq_refl) as (o1 & E1 & L1 & G1).
  destruct (C58_zdp DFloat DFloat 1 [] [Fin 3] [Fin 1] eq_refl) as (o2 & E2 & L2 & G2).
  specialize (G1 0%nat _ _ eq_refl eq_refl). specialize (G2 0%nat _ _ eq_refl eq_refl).
  rewrite E, flt_fin in *. destruct (Rltb_spec 1 3); [|lra].
  rewrite E1, E2. destruct o1 as [|a [|]]; try discriminate. destruct o2 as [|b [|]]; try discriminate.
  cbn [nth_error cast] in G1, G2.
  assert (Ea : a = Fin 3).
  { replace a with (ftrunc (Fin (10 * (ln 2 / ln 10)))) by congruence.
    change (Fin (Rtrunc (10 * (ln 2 / ln 10))) = Fin 3). f_equal.
    unfold Rtrunc. destruct Rle_dec; [|lra].
    destruct (base_Int_part (10 * (ln 2 / ln 10))) as [H1 H2]. set (x := Int_part _) in *.
    assert (2 < x)%Z by (apply lt_IZR; lra). assert (x < 4)%Z by (apply lt_IZR; lra).
    replace x with 3%Z by lia. reflexivity. }
  subst a. split; [reflexivity|]. exists (10 * (ln 2 / ln 10)). split; auto. congruence.
Qed.

(** ** C61 *)
Section C61.
Context {F : Type} `{FloatOps F}.
Theorem C61_reflectivity_always_fails : forall pt g pw wl bh bv al rl pr r k : nd F,
  reflectivity pt g pw wl bh bv al rl pr r k = Raise NameError.
Proof. reflexivity. Qed.
Theorem C61_range_correct_always_fails : forall r h e : nd F, range_correct r h e = Raise NameError.
Proof. reflexivity. Qed.
(** vel_shift refuses a number in either position, although its docstring
    accepts floats; with two arrays of one length it is elementwise. *)
Theorem C61_vel_shift_scalar : forall (v : F) (x : nd F),
  vel_shift (NS v) x = Raise TypeError /\
  (forall n d, vel_shift (NA [n] d) (NS v) = Raise TypeError).
Proof. intros; split; reflexivity. Qed.
Theorem C61_vel_shift_arrays : forall n (d p : list F), length d = n -> length p = n ->
  exists r, vel_shift (NA [n] d) (NA [n] p) = Ok (NA [n] r) /\ length r = n /\
    forall i v a, nth_error d i = Some v -> nth_error p i = Some a ->
      nth_error r i = Some (fmul v (fcos (deg2rad a))).
Proof.
  intros n d p Hd Hp. unfold vel_shift. cbn [np_len bind nd1 nd2]. unfold shape_eqb.
  destruct list_eq_dec; [|contradiction]. eexists. split; [reflexivity|]. split.
  - subst n. clear -Hp. revert p Hp; induction d; intros [|] E; simpl in *; try discriminate; auto.
  - intros. apply map2_at; auto. now apply (map_nth_error (fun p => fcos (deg2rad p))).
Qed.
End C61.
Example C61_ex : vel_shift (NS (Fin 10)) (NS (Fin 45)) = Raise TypeError. Proof. reflexivity. Qed.

(** ** C76: attenuation *)
(** The extinction coefficient is the sum of the absorption and the scattering
    coefficients, for every number type. *)
Theorem C76_extinction_is_sum : forall {F} `{FloatOps F} (d w : F) m a s,
  abs_coeff d w m = Ok a -> scat_coeff d w m = Ok s -> ext_coeff d w m = Ok (fadd a s).
Proof. intros. unfold ext_coeff. now rewrite H0, H1. Qed.

(** For m = n - i k (the documented form 7.14 - 2.89j, n > 0, k >= 0): absorption
    and scattering are defined and non-negative; absorption vanishes exactly for
    a lossless particle (k = 0).  With the other sign convention (n + i k) the
    absorption comes out negative. *)
Theorem C76_absorption_sign : forall d w n k, 0 < d -> 0 < w -> 0 < n -> 0 < k ->
  exists a a' s, abs_coeff (Fin d) (Fin w) (Fin n, Fin (- k)) = Ok (Fin a) /\ 0 < a /\
    abs_coeff (Fin d) (Fin w) (Fin n, Fin k) = Ok (Fin a') /\ a' = - a /\
    scat_coeff (Fin d) (Fin w) (Fin n, Fin (- k)) = Ok (Fin s) /\ 0 <= s /\
    scat_coeff (Fin d) (Fin w) (Fin n, Fin k) = Ok (Fin s).
Proof.
  intros d w n k Hd Hw Hn Hk.
  assert (Hnk : 0 < n * k) by now apply Rmult_lt_0_compat.
  set (D := (n ^ 2 - k ^ 2 + 2) ^ 2 + (2 * n * k) ^ 2).
  assert (HD : 0 < D).
  { unfold D. assert (0 < (2 * n * k) ^ 2) by (apply pow_lt; lra). pose proof (pow2_ge_0 (n ^ 2 - k ^ 2 + 2)). lra. }
  assert (ED : (n ^ 2 - (- k) ^ 2 + 2) ^ 2 + (2 * n * - k) ^ 2 = D) by (unfold D; ring).
  assert (Ek : kabs2 n (- k) = kabs2 n k).
  { unfold kabs2. rewrite ED. fold D. unfold Rdiv. f_equal. ring. }
  assert (Ei : kim n (- k) = - kim n k).
  { unfold kim. rewrite ED. fold D. field. lra. }
  rewrite !abs_coeff_v, !scat_coeff_v by (rewrite ?ED; fold D; lra).
  rewrite Ek, Ei, Ropp_involutive.
  do 3 eexists. repeat split.
  - pose proof PI_RGT_0. unfold kim. fold D.
    apply Rmult_lt_0_compat.
    + apply Rdiv_lt_0_compat; auto. apply Rmult_lt_0_compat; apply pow_lt; auto.
    + apply Rdiv_lt_0_compat; auto. lra.
  - ring.
  - pose proof PI_RGT_0. apply Rmult_le_pos.
    + left. apply Rdiv_lt_0_compat; apply Rmult_lt_0_compat; try apply pow_lt; try lra.
      apply Rmult_lt_0_compat; [lra|apply pow_lt; auto].
    + unfold kabs2. fold D. apply Rmult_le_pos; [|left; now apply Rinv_0_lt_compat].
      apply Rplus_le_le_0_compat; apply pow2_ge_0.
Qed.
Theorem C76_lossless_no_absorption : forall d w n, w <> 0 ->
  abs_coeff (Fin d) (Fin w) (Fin n, Fin 0) = Ok (Fin 0).
Proof.
  intros d w n Hw. assert (HD : 0 < (n ^ 2 - 0 ^ 2 + 2) ^ 2 + (2 * n * 0) ^ 2).
  { pose proof (pow2_ge_0 n). assert (0 < (n ^ 2 - 0 ^ 2 + 2) ^ 2) by (apply pow_lt; lra).
    pose proof (pow2_ge_0 (2 * n * 0)). lra. }
  rewrite abs_coeff_v by auto. do 2 f_equal. replace (kim n 0) with 0; [ring|unfold kim, Rdiv; ring].
Qed.
(** Rayleigh laws: absorption with the cube, scattering with the sixth power of
    the diameter, so scaling it by s changes their ratio by s^3. *)
Theorem C76_size_laws : forall d w n k s, w <> 0 -> n * k <> 0 ->
  exists a b, abs_coeff (Fin d) (Fin w) (Fin n, Fin k) = Ok (Fin a) /\
    scat_coeff (Fin d) (Fin w) (Fin n, Fin k) = Ok (Fin b) /\
    abs_coeff (Fin (s * d)) (Fin w) (Fin n, Fin k) = Ok (Fin (s ^ 3 * a)) /\
    scat_coeff (Fin (s * d)) (Fin w) (Fin n, Fin k) = Ok (Fin (s ^ 6 * b)) /\
    ext_coeff (Fin (s * d)) (Fin w) (Fin n, Fin k) = Ok (Fin (s ^ 3 * a + s ^ 6 * b)).
Proof.
  intros d w n k s Hw Hnk.
  assert (HD : 0 < (n ^ 2 - k ^ 2 + 2) ^ 2 + (2 * n * k) ^ 2).
  { pose proof (pow2_ge_0 (n ^ 2 - k ^ 2 + 2)).
    assert (0 < (2 * n * k) ^ 2); [|lra]. replace ((2 * n * k) ^ 2) with (4 * (n * k) ^ 2) by ring.
    assert (0 < (n * k) ^ 2); [|lra]. rewrite <- Rsqr_pow2. now apply Rsqr_pos_lt. }
  unfold ext_coeff. rewrite !abs_coeff_v, !scat_coeff_v by auto. cbn [bind]. rewrite fadd_fin.
  do 2 eexists. repeat split; do 2 f_equal; field; auto.
Qed.
(** The three functions raise ZeroDivisionError exactly at the resonance
    m^2 = -2, that is m = i sqrt 2 or m = - i sqrt 2 (m = n + ik, m^2 = n^2 - k^2
    + 2nk i). *)
Theorem C76_resonance : forall d w n k, w <> 0 ->
  let resonant := n * n - k * k = - (2) /\ 2 * (n * k) = 0 in
  (abs_coeff (Fin d) (Fin w) (Fin n, Fin k) = Raise ZeroDivisionError <-> resonant) /\
  (scat_coeff (Fin d) (Fin w) (Fin n, Fin k) = Raise ZeroDivisionError <-> resonant) /\
  (ext_coeff (Fin d) (Fin w) (Fin n, Fin k) = Raise ZeroDivisionError <-> resonant) /\
  (~ resonant -> exists a s e, abs_coeff (Fin d) (Fin w) (Fin n, Fin k) = Ok (Fin a) /\
     scat_coeff (Fin d) (Fin w) (Fin n, Fin k) = Ok (Fin s) /\
     ext_coeff (Fin d) (Fin w) (Fin n, Fin k) = Ok (Fin e) /\ e = a + s).
Proof.
  intros d w n k Hw res.
  assert (Hres : res -> k_complex (Fin n, Fin k) = Raise ZeroDivisionError).
  { intros [H1 H2]. unfold k_complex. cbn [cmul fst snd].
    rewrite !lit_int, !fmul_fin, !fsub_fin, !fadd_fin, !fsub_fin.
    unfold cdiv. rewrite !fabs_fin, !fle_fin, lit_int, feq_fin.
    replace (n * n - k * k + 2) with 0 by lra. replace (n * k + k * n + 0) with 0 by lra.
    rewrite Rabs_R0. destruct (Rleb_spec 0 0); [|lra]. destruct (Reqb_spec 0 0); [|lra]. reflexivity. }
  assert (Hnot : ~ res -> 0 < (n ^ 2 - k ^ 2 + 2) ^ 2 + (2 * n * k) ^ 2).
  { intros HN. pose proof (pow2_ge_0 (n ^ 2 - k ^ 2 + 2)). pose proof (pow2_ge_0 (2 * n * k)).
    destruct (Req_dec (n ^ 2 - k ^ 2 + 2) 0) as [E1|E1].
    - destruct (Req_dec (2 * n * k) 0) as [E2|E2].
      + exfalso. apply HN. split; lra.
      + assert (0 < (2 * n * k) ^ 2) by (rewrite <- Rsqr_pow2; now apply Rsqr_pos_lt). lra.
    - assert (0 < (n ^ 2 - k ^ 2 + 2) ^ 2) by (rewrite <- Rsqr_pow2; now apply Rsqr_pos_lt). lra. }
  assert (Hdec : res \/ ~ res).
  { subst res. destruct (Req_dec (n * n - k * k) (- (2))); [|now right; intros []].
    destruct (Req_dec (2 * (n * k)) 0); [now left|now right; intros []]. }
  assert (Hok : ~ res -> exists a s e, abs_coeff (Fin d) (Fin w) (Fin n, Fin k) = Ok (Fin a) /\
     scat_coeff (Fin d) (Fin w) (Fin n, Fin k) = Ok (Fin s) /\
     ext_coeff (Fin d) (Fin w) (Fin n, Fin k) = Ok (Fin e) /\ e = a + s).
  { intros HN. specialize (Hnot HN). unfold ext_coeff. rewrite abs_coeff_v, scat_coeff_v by auto.
    cbn [bind]. rewrite fadd_fin. do 3 eexists. repeat split. }
  assert (HR : res -> abs_coeff (Fin d) (Fin w) (Fin n, Fin k) = Raise ZeroDivisionError /\
     scat_coeff (Fin d) (Fin w) (Fin n, Fin k) = Raise ZeroDivisionError /\
     ext_coeff (Fin d) (Fin w) (Fin n, Fin k) = Raise ZeroDivisionError).
  { intros Hr. unfold ext_coeff, abs_coeff, scat_coeff. rewrite (Hres Hr). repeat split. }
  destruct Hdec as [Hr|Hn].
  - destruct (HR Hr) as (E1 & E2 & E3). rewrite E1, E2, E3.
    split; [now split; auto|]. split; [now split; auto|]. split; [now split; auto|]. intros HN. now destruct HN.
  - destruct (Hok Hn) as (a & s & e & E1 & E2 & E3 & E4). rewrite E1, E2, E3.
    split; [split; [intros HH; inversion HH|contradiction]|].
    split; [split; [intros HH; inversion HH|contradiction]|].
    split; [split; [intros HH; inversion HH|contradiction]|].
    intros _. now exists a, s, e.
Qed.
Example C76_resonant_index : 0 * 0 - sqrt 2 * sqrt 2 = - (2) /\ 2 * (0 * sqrt 2) = 0.
Proof. rewrite sqrt_sqrt by lra. lra. Qed.
Example C76_ex : exists a a' s, abs_coeff (Fin 0.001) (Fin 0.0321) (Fin 7.14, Fin (Ropp 2.89)) = Ok (Fin a) /\ 0 < a /\
    abs_coeff (Fin 0.001) (Fin 0.0321) (Fin 7.14, Fin 2.89) = Ok (Fin a') /\ a' = - a /\
    scat_coeff (Fin 0.001) (Fin 0.0321) (Fin 7.14, Fin (Ropp 2.89)) = Ok (Fin s) /\ 0 <= s /\
    scat_coeff (Fin 0.001) (Fin 0.0321) (Fin 7.14, Fin 2.89) = Ok (Fin s).
Proof. apply C76_absorption_sign; lra. Qed.
