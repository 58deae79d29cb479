(** * C87: the filter calc_kdp_bringi asks for *)
From Coq Require Import Reals Lra Lia Qreals Arith ZArith.
From Verif Require Import Base.Num Base.ListFacts Base.XReal Base.XTac Base.XArith Base.QOps.
From Verif Require Import Model.Kdp.
From Verif Require Import Proofs.KdpReal.
Open Scope R_scope.

(** the design for an even order n > 0: n + 1 taps, cutoff 1.6 / n of Nyquist,
    Gaussian window of standard deviation 1.4 n *)
Definition fir_request (n : Z) : Z * R * R := ((n + 1)%Z, 1.6 / IZR n, 1.4 * IZR n).

Lemma ratio_fin (n : Z) : fdiv (flit (inject_Z n)) (flit 20) = Fin (IZR n / 20).
Proof.
  rewrite (lit_fin (inject_Z n)), (lit_fin 20). unfold inject_Z; cbn [Qnum Qden].
  rewrite fdiv_fin by lra. f_equal. field.
Qed.

(** get_fir, in exact arithmetic: one design request, for the order window/gs *)
Theorem C87_get_fir toint firwin (gs window : R) (n : Z) :
  gs <> 0 -> toint (Fin (window * 1000 / gs)) = n -> Z.even n = true -> (0 < n)%Z ->
  get_fir (F:=xr) toint firwin (Fin gs) (Fin window)
  = bind (firwin (fst (fst (fir_request n))) (Fin (snd (fst (fir_request n)))) (Fin (snd (fir_request n))))
      (fun coef => Ok (n, Fin 1, coef)).
Proof.
  intros Hg Hn He Hp. unfold get_fir. cbn [fir_request fst snd].
  assert (P : 0 < IZR n) by now apply IZR_lt.
  assert (O : fdiv (fmul (Fin window) (flit 1000.0)) (Fin gs) = Fin (window * 1000 / gs)).
  { rewrite (lit_fin 1000.0), fmul_fin, fdiv_fin by auto. f_equal. cbn [Qnum Qden]. field. auto. }
  rewrite O, Hn. cbv zeta. rewrite Zeven_mod in He. apply Zeq_bool_eq in He. rewrite He. cbn [Z.eqb negb].
  rewrite ratio_fin, (lit_fin 0.08), (lit_fin 28.0), (lit_fin 1.0). cbn [Qnum Qden].
  rewrite fmul_fin, fdiv_fin by (unfold Rdiv; nra).
  replace (8 / 100 / (IZR n / 20)) with (1.6 / IZR n) by (replace 1.6 with (8/5) by lra; field; lra).
  replace (IZR n / 20 * (280 / 10)) with (1.4 * IZR n) by lra. replace (10 / 10) with 1 by lra. reflexivity.
Qed.

(** ... and calc_kdp_bringi makes no other: filter designers that agree on that
    one request give the same result for all data, thresholds and options *)
Theorem C87_one_design bd toint firwin firwin' env dp dz rng thsd nf bad (gs window : R) sg (n : Z) :
  gs <> 0 -> toint (Fin (window * 1000 / gs)) = n -> Z.even n = true -> (0 < n)%Z ->
  firwin (n + 1)%Z (Fin (1.6 / IZR n)) (Fin (1.4 * IZR n)) = firwin' (n + 1)%Z (Fin (1.6 / IZR n)) (Fin (1.4 * IZR n)) ->
  calc_kdp_bringi (F:=xr) bd toint firwin env dp dz rng thsd nf bad (Fin gs) (Fin window) sg
  = calc_kdp_bringi bd toint firwin' env dp dz rng thsd nf bad (Fin gs) (Fin window) sg.
Proof.
  intros Hg Hn He Hp Hf. unfold calc_kdp_bringi.
  rewrite !(C87_get_fir toint _ gs window n) by auto. cbn [fir_request fst snd]. now rewrite Hf.
Qed.

(** the request is always within the domain of scipy.signal.firwin: an odd number
    of taps (so the pass band may include 0), 0 < cutoff < 1, positive width *)
Theorem C87_request_in_domain (n : Z) : Z.even n = true -> (0 < n)%Z ->
  let '(taps, cutoff, std) := fir_request n in
  Z.odd taps = true /\ (3 <= taps)%Z /\ 0 < cutoff <= 0.8 /\ 2.8 <= std.
Proof.
  intros He Hp. unfold fir_request.
  assert (H2 : (2 <= n)%Z). { destruct (Z.eq_dec n 1) as [->|]; [discriminate|lia]. }
  assert (P : 2 <= IZR n) by now apply IZR_le.
  split. { rewrite Z.odd_add, <- Z.negb_even, He. reflexivity. }
  split; [lia|]. split; [split|lra].
  - apply Rdiv_lt_0_compat; lra.
  - apply Rmult_le_reg_r with (IZR n); [lra|]. unfold Rdiv. rewrite Rmult_assoc, Rinv_l by lra. lra.
Qed.

(** Only the ratio of window to gate spacing matters. *)
Theorem C87_only_ratio bd toint firwin env dp dz rng thsd nf bad (gs window lam : R) sg :
  gs <> 0 -> lam <> 0 ->
  calc_kdp_bringi (F:=xr) bd toint firwin env dp dz rng thsd nf bad (Fin (lam * gs)) (Fin (lam * window)) sg
  = calc_kdp_bringi bd toint firwin env dp dz rng thsd nf bad (Fin gs) (Fin window) sg.
Proof.
  intros Hg Hl. unfold calc_kdp_bringi.
  assert (E : get_fir (F:=xr) toint firwin (Fin (lam * gs)) (Fin (lam * window)) = get_fir toint firwin (Fin gs) (Fin window)).
  { unfold get_fir. rewrite (lit_fin 1000.0). cbn [Qnum Qden]. rewrite !fmul_fin, !fdiv_fin by (auto; intro Z; apply Rmult_integral in Z; tauto).
    replace (lam * window * (10000 / 10) / (lam * gs)) with (window * (10000 / 10) / gs) by (field; auto).
    reflexivity. }
  now rewrite E.
Qed.

(** The defaults (150 m gates, 3 km window): order 20, i.e. the 21-tap filter with
    cutoff 0.08 and width 28 the module constants name. *)
Theorem C87_default_design toint firwin :
  toint (Fin 20) = 20%Z ->
  get_fir (F:=xr) toint firwin (Fin 150) (Fin 3)
  = bind (firwin 21%Z (Fin 0.08) (Fin 28)) (fun coef => Ok (20%Z, Fin 1, coef)).
Proof.
  intro T. rewrite (C87_get_fir toint firwin 150 3 20); auto; try lra; try lia.
  - cbn [fir_request fst snd]. replace (1.6 / 20) with 0.08 by lra. replace (1.4 * 20) with 28 by lra. reflexivity.
  - rewrite <- T. do 2 f_equal. lra.
Qed.

(** An order of 0 (window shorter than a gate) asks for a cutoff of +infinity. *)
Theorem C87_order_zero toint firwin (gs window : R) :
  gs <> 0 -> toint (Fin (window * 1000 / gs)) = 0%Z ->
  get_fir (F:=xr) toint firwin (Fin gs) (Fin window)
  = bind (firwin 1%Z PInf (Fin 0)) (fun coef => Ok (0%Z, Fin 1, coef)).
Proof.
  intros Hg Hn. unfold get_fir.
  assert (O : fdiv (fmul (Fin window) (flit 1000.0)) (Fin gs) = Fin (window * 1000 / gs)).
  { rewrite (lit_fin 1000.0), fmul_fin, fdiv_fin by auto. f_equal. cbn [Qnum Qden]. field. auto. }
  rewrite O, Hn. cbv zeta. cbn [Z.modulo Z.div_eucl Z.eqb negb].
  rewrite ratio_fin, (lit_fin 0.08), (lit_fin 28.0), (lit_fin 1.0), fmul_fin. cbn [Qnum Qden].
  replace (0 / 20) with 0 by lra. replace (0 * (280 / 10)) with 0 by lra. replace (10 / 10) with 1 by lra.
  assert (D : fdiv (Fin (8 / 100)) (Fin 0) = PInf).
  { change (xdiv (Fin (8 / 100)) (Fin 0) = PInf). unfold xdiv, xinf.
    repeat match goal with |- context [Req_EM_T ?x ?y] => destruct (Req_EM_T x y); try lra
      | |- context [Rlt_dec ?x ?y] => destruct (Rlt_dec x y); try lra end; reflexivity. }
  rewrite D. reflexivity.
Qed.

(** Non-vacuity: a truncating conversion *)
Example C87_conversion : exists toint : xr -> Z, forall z : Z, toint (Fin (IZR z)) = z.
Proof.
  exists (fun x => match x with Fin r => Int_part r | _ => 0%Z end). intro z. cbn.
  unfold Int_part. rewrite <- (tech_up (IZR z) (z + 1)); [lia| |]; rewrite plus_IZR; lra.
Qed.
