(** Rounding errors of the trapezoid temperature memberships. *)
From Coq Require Import Reals Lra Lia ZArith QArith.
From Flocq Require Import Core IEEE754.BinarySingleNaN.
From Verif Require Import Base.Num Base.ListFacts Base.XReal Base.Pointwise Base.Ieee Base.RelErr Base.PosErr Spec.IeeeSpec Spec.LibmSpec.
From Verif Require Import Model.TTraps Spec.TrapSpec.
From Verif Require Import Proofs.BetaErr Proofs.HidErr Proofs.IeeeRain Proofs.EdgeRain Proofs.FundErr Proofs.IceErr Proofs.IeeeSign.
Open Scope R_scope.
#[local] Existing Instances p53 e1024 p24 e128.

Section TE.
Variables (np1 : bool) (lm : libm double).
#[local] Instance dop : FloatOps double := double_ops np1 lm.

Lemma val_int (x : double) n : (Z.abs n < 2 ^ 53)%Z -> B2SF x = B2SF (b_lit 53 1024 p53 e1024 (Qmake n 1)) -> dval x = Fin (IZR n).
Proof.
  intros L. rewrite <- (lit_int n L). generalize (b_lit 53 1024 p53 e1024 (Qmake n 1)). intros y E.
  destruct x as [s|s| |s m e H], y as [s'|s'| |s' m' e' H']; cbn in E; try discriminate E; try reflexivity; (injection E; intros; subst; reflexivity).
Qed.
Lemma N_divn e (x y : double) a n E : near e x a -> dval y = Fin n -> 1 <= n -> Rabs a <= 10 -> e <= 1 / 10 ^ 6 ->
  e + ud * 11 + taud <= E -> near E (fdiv x y) (a / n).
Proof.
  intros (x' & X & D) Y N1 A He HE. pose proof (Rabs_pos (x' - a)). pose proof (Rabs_pos a).
  assert (I : 0 < / n <= 1).
  { split; [apply Rinv_0_lt_compat; lra|]. rewrite <- Rinv_1. apply Rinv_le_contravar; lra. }
  apply N_rnd with (e := e) (s := x' / n) (M := 10); try lra.
  - exact (r_div np1 lm x y x' n X Y ltac:(lra)).
  - replace (x' / n - a / n) with ((x' - a) * / n) by (field; lra). rewrite Rabs_mult, (Rabs_pos_eq (/ n)) by lra. nra.
  - unfold Rdiv. rewrite Rabs_mult, (Rabs_pos_eq (/ n)) by lra. nra.
  - unfold ud in *. lra.
Qed.
Lemma N_abs e (x : double) a b : near e x a -> Rabs a = b -> near e (fabs x) b.
Proof.
  intros (v & V & D) <-. exists (Rabs v). split.
  - change (dval (Babs x) = Fin (Rabs v)). rewrite val_abs, V. reflexivity.
  - apply Rle_trans with (2 := D). apply Rabs_triang_inv2.
Qed.
Lemma N_eq e (x : double) a b : near e x a -> a = b -> near e x b. Proof. now intros ? <-. Qed.
Lemma nlit q c : IZR (Qnum q) / IZR (Zpos (Qden q)) = c -> Rabs c <= 2 -> near (3 / 10 ^ 15) (flit q : double) c.
Proof. intros Q B. apply (N_lit np1 lm q c); auto; unfold ud, taud; lra. Qed.

(** the exact value of a membership for any temperature, finite or not *)
Definition trapv (c : nat) (t : xr) : R :=
  match t with Fin r => trap_spec c r | PInf => trap_spec c 100 | NInf => trap_spec c (-100) | NaN => 0 end.

(** a ramp: slope * (c + t) *)
Lemma ramp (sl k : double) s a (x : double) t : near (2 / 10 ^ 14) sl s -> 0 <= s <= 1 / 4 -> dval k = Fin a -> dval x = Fin t ->
  Rabs (a + t) <= 30 -> near (8 / 10 ^ 13) (fmul sl (fadd k x)) (s * (a + t)).
Proof.
  intros S Rs K X B.
  assert (A : near (1 / 10 ^ 13) (fadd k x) (a + t)).
  { apply (N_add np1 lm) with (e1 := 0) (e2 := 0) (M := 30); auto using N_exact; try lra. unfold ud, taud. lra. }
  apply (N_mul np1 lm) with (e1 := 2 / 10 ^ 14) (e2 := 1 / 10 ^ 13) (A := 1 / 4) (B := 30); auto; try lra;
    [rewrite Rabs_pos_eq; lra|unfold ud, taud; lra].
Qed.
Lemma rampm (sl k : double) s a (x : double) t : near (2 / 10 ^ 14) sl s -> 0 <= s <= 1 / 4 -> dval k = Fin a -> dval x = Fin t ->
  Rabs (a - t) <= 30 -> near (8 / 10 ^ 13) (fmul sl (fsub k x)) (s * (a - t)).
Proof.
  intros S Rs K X B.
  assert (A : near (1 / 10 ^ 13) (fsub k x) (a - t)).
  { apply (N_sub np1 lm) with (e1 := 0) (e2 := 0) (M := 30); auto using N_exact; try lra. unfold ud, taud. lra. }
  apply (N_mul np1 lm) with (e1 := 2 / 10 ^ 14) (e2 := 1 / 10 ^ 13) (A := 1 / 4) (B := 30); auto; try lra;
    [rewrite Rabs_pos_eq; lra|unfold ud, taud; lra].
Qed.
Lemma rampx (sl k : double) s a (x : double) t : near (2 / 10 ^ 14) sl s -> 0 <= s <= 1 -> dval k = Fin a -> dval x = Fin t ->
  Rabs (t - a) <= 8 -> near (8 / 10 ^ 13) (fmul sl (fsub x k)) (s * (t - a)).
Proof.
  intros S Rs K X B.
  assert (A : near (1 / 10 ^ 13) (fsub x k) (t - a)).
  { apply (N_sub np1 lm) with (e1 := 0) (e2 := 0) (M := 8); auto using N_exact; try lra. unfold ud, taud. lra. }
  apply (N_mul np1 lm) with (e1 := 2 / 10 ^ 14) (e2 := 1 / 10 ^ 13) (A := 1) (B := 8); auto; try lra;
    [rewrite Rabs_pos_eq; lra|unfold ud, taud; lra].
Qed.
Lemma plus_c (y : double) r q c : near (8 / 10 ^ 13) y r -> near (3 / 10 ^ 15) q c -> Rabs r <= 4 -> Rabs c <= 2 ->
  near (9 / 10 ^ 13) (fadd y q) (r + c).
Proof.
  intros Y Q A B. apply (N_add np1 lm) with (e1 := 8 / 10 ^ 13) (e2 := 3 / 10 ^ 15) (M := 6); auto; try lra.
  - apply Rle_trans with (1 := Rabs_triang _ _). lra.
  - unfold ud, taud. lra.
Qed.
Lemma minus_c (y : double) r q c : near (8 / 10 ^ 13) y r -> near (3 / 10 ^ 15) q c -> Rabs r <= 4 -> Rabs c <= 2 ->
  near (9 / 10 ^ 13) (fsub y q) (r - c).
Proof.
  intros Y Q A B. apply (N_sub np1 lm) with (e1 := 8 / 10 ^ 13) (e2 := 3 / 10 ^ 15) (M := 6); auto; try lra.
  - unfold Rminus. apply Rle_trans with (1 := Rabs_triang _ _). rewrite Rabs_Ropp. lra.
  - unfold ud, taud. lra.
Qed.
Lemma c_minus (y : double) r q c : near (8 / 10 ^ 13) y r -> near (3 / 10 ^ 15) q c -> Rabs r <= 4 -> Rabs c <= 2 ->
  near (9 / 10 ^ 13) (fsub q y) (c - r).
Proof.
  intros Y Q A B. apply (N_sub np1 lm) with (e1 := 3 / 10 ^ 15) (e2 := 8 / 10 ^ 13) (M := 6); auto; try lra.
  - unfold Rminus. apply Rle_trans with (1 := Rabs_triang _ _). rewrite Rabs_Ropp. lra.
  - unfold ud, taud. lra.
Qed.
Lemma slope q c (y : double) n s : IZR (Qnum q) / IZR (Zpos (Qden q)) = c -> Rabs c <= 2 -> (1 <= n < 2 ^ 53)%Z ->
  B2SF y = B2SF (b_lit 53 1024 p53 e1024 (Qmake n 1)) -> c / IZR n = s -> near (2 / 10 ^ 14) (fdiv (flit q) y) s.
Proof.
  intros Q C N Y <-. apply N_divn with (e := 3 / 10 ^ 15); auto using nlit.
  - apply val_int; auto. lia.
  - apply IZR_le. lia.
  - lra.
  - lra.
  - unfold ud, taud. lra.
Qed.

(** ** The ten classes *)
Lemma xle_fin a b : xle (Fin a) (Fin b) = Rleb a b. Proof. reflexivity. Qed.
Lemma dint n : (Z.abs n < 2 ^ 53)%Z -> dval (flit (Qmake n 1) : double) = Fin (IZR n). Proof. exact (lit_int n). Qed.
Lemma fle_val (x y : double) : fle x y = xle (dval x) (dval y). Proof. exact (val_le 53 1024 x y). Qed.
Ltac num := cbn [Qnum Qden]; first [lra | rewrite Rabs_pos_eq by lra; lra | rewrite Rabs_left by lra; lra | rewrite Rabs_left1 by lra; lra].
Ltac sl q c n s := refine (slope q c _ n s _ _ _ _ _); [num|num|lia|vm_compute; reflexivity|lra].
Ltac start :=
  intros; etransitivity; [solve [unfold setc, setv, win, wle, wge; pw]|]; cbn [cast].
Definition near12 := near (1 / 10 ^ 12).

(** the membership of one gate as the source computes it *)
Definition gate_of (c : nat) (x : double) : double :=
  match get_hid_traps DFloat c [x] with Ok [y] => y | _ => x end.
Lemma gate_at c xs out i x : get_hid_traps DFloat c xs = Ok out -> nth_error xs i = Some x -> nth_error out i = Some (gate_of c x).
Proof.
  intros E H. do 10 (destruct c as [|c]; [
    injection E as <-; unfold gate_of; cbn [get_hid_traps];
    unfold t_trap_dz, t_trap_rain, t_trap_ic, t_trap_agg, t_trap_ws, t_trap_ldg, t_trap_hdg, t_trap_ha, t_trap_bd, setc, setv, win, wle, wge;
    etransitivity; [solve [pw]|]; reflexivity|]). discriminate.
Qed.

Ltac rd := repeat match goal with
  | |- context [Rlt_dec ?x ?y] => destruct (Rlt_dec x y); try (exfalso; lra)
  | |- context [Rle_dec ?x ?y] => destruct (Rle_dec x y); try (exfalso; lra)
  | |- context [Rleb ?x ?y] => destruct (Rleb_spec x y); try (exfalso; lra)
  end; cbn [andb].
Ltac const := match goal with |- near _ (flit _) _ => idtac end; eapply N_eq; [apply near_le with (3 / 10 ^ 15); [eapply nlit; [reflexivity|num]|lra]|cbn [Qnum Qden]; lra].
Ltac vint := apply val_int; [lia|vm_compute; reflexivity].
Ltac absd := apply Rabs_le; lra.
(** slope c/n = s times (a + t), plus or minus a constant *)
Ltac RP q c n s a qc cc X t := apply N_eq with (s * (a + t) + cc); [apply near_le with (9 / 10 ^ 13); [apply plus_c;
  [apply ramp; [sl q c n s|lra|vint|exact X|absd]|apply nlit; num|absd|num]|lra]|lra].
Ltac RM q c n s a qc cc X t := apply N_eq with (s * (a - t) + cc); [apply near_le with (9 / 10 ^ 13); [apply plus_c;
  [apply rampm; [sl q c n s|lra|vint|exact X|absd]|apply nlit; num|absd|num]|lra]|lra].
Ltac RMM q c n s a qc cc X t := apply N_eq with (s * (a - t) - cc); [apply near_le with (9 / 10 ^ 13); [apply minus_c;
  [apply rampm; [sl q c n s|lra|vint|exact X|absd]|apply nlit; num|absd|num]|lra]|lra].
Ltac RM0 q c n s a X t := apply N_eq with (s * (a - t)); [apply near_le with (8 / 10 ^ 13); [
  apply rampm; [sl q c n s|lra|vint|exact X|absd]|lra]|lra].
Ltac gateform := cbv [gate_of get_hid_traps t_trap_dz t_trap_rain t_trap_ic t_trap_agg t_trap_ws t_trap_ldg t_trap_hdg t_trap_ha t_trap_bd
  setc setv win wle wge mset msetc land map map2 map3 cast andb].
Ltac opengate x t X := gateform; destruct (dval x) as [t| | |] eqn:X; rewrite !fle_val, !dint, X by lia; cbn [xle trapv]; unfold trap_spec, near12; rd.

Lemma cls3 x : near12 (gate_of 3 x) (trapv 3 (dval x)).
Proof.
  opengate x t X; try const.
  all: lazymatch goal with |- near _ (fmul _ _) _ => RM0 1%Q 1 5%Z (1 / 5) 5 X t | _ => idtac end.
  all: lazymatch goal with |- near _ (fadd (fmul _ (fadd _ _)) _) _ => RP 0.5%Q (1 / 2) 10%Z (1 / 20) 35 0.5%Q (1 / 2) X t | _ => idtac end.
Qed.
Lemma cls6 x : near12 (gate_of 6 x) (trapv 6 (dval x)).
Proof.
  opengate x t X; try const.
  all: lazymatch goal with |- near _ (fmul _ _) _ => RM0 1%Q 1 5%Z (1 / 5) 5 X t | _ => idtac end.
  all: lazymatch goal with |- near _ (fadd (fmul _ (fadd _ _)) _) _ => RP 0.5%Q (1 / 2) 10%Z (1 / 20) 40 0.5%Q (1 / 2) X t | _ => idtac end.
Qed.
Lemma cls4 x : near12 (gate_of 4 x) (trapv 4 (dval x)).
Proof. opengate x t X; try const. Qed.
Lemma cls7 x : near12 (gate_of 7 x) (trapv 7 (dval x)).
Proof.
  opengate x t X; try const.
  all: lazymatch goal with |- near _ (fsub (fmul _ (fsub _ _)) _) _ => RMM 2%Q 2 25%Z (2 / 25) 30 1%Q 1 X t | _ => idtac end.
  all: lazymatch goal with |- near _ (fadd (fmul _ (fadd _ _)) _) _ => RP 0.7%Q (7 / 10) 10%Z (7 / 100) 30 0.3%Q (3 / 10) X t | _ => idtac end.
Qed.
Lemma cls8 x : near12 (gate_of 8 x) (trapv 8 (dval x)).
Proof.
  opengate x t X; try const.
  all: lazymatch goal with |- near _ (fadd (fmul _ (fsub _ _)) _) _ => RM 0.6%Q (6 / 10) 10%Z (6 / 100) 15 0.2%Q (2 / 10) X t | _ => idtac end.
  all: lazymatch goal with |- near _ (fadd (fmul _ (fadd _ _)) _) _ => RP 0.6%Q (6 / 10) 10%Z (6 / 100) 30 0.2%Q (2 / 10) X t | _ => idtac end.
Qed.
Lemma cls1 x : near12 (gate_of 1 x) (trapv 1 (dval x)).
Proof.
  opengate x t X; try const.
  all: apply N_abs with (1 / 12 * (t - -10)); [|rewrite Rabs_pos_eq; lra].
  all: apply near_le with (8 / 10 ^ 13); [|lra].
  all: apply rampx; [sl 1%Q 1 12%Z (1 / 12)|lra|vint|exact X|absd].
Qed.
Lemma ice_near x t : dval x = Fin t -> 0 <= t <= 5 ->
  near12 (fsub (flit 1%Q) (fabs (fmul (fdiv (flit 1%Q) (fabs (fadd (flit 5%Q) (flit 0%Q)))) (fsub x (flit 0%Q))))) (1 - t / 5).
Proof.
  intros X T. apply N_eq with (1 - 1 / 5 * (t - 0)); [|lra]. apply near_le with (9 / 10 ^ 13); [|lra].
  apply c_minus; [|apply nlit; num|absd|num].
  apply N_abs with (1 / 5 * (t - 0)); [|rewrite Rabs_pos_eq; lra].
  apply rampx; [sl 1%Q 1 5%Z (1 / 5)|lra|vint|exact X|absd].
Qed.
Lemma cls2 x : near12 (gate_of 2 x) (trapv 2 (dval x)).
Proof. opengate x t X; try const; try (apply ice_near; [exact X|lra]). Qed.
Lemma cls5 x : near12 (gate_of 5 x) (trapv 5 (dval x)).
Proof. opengate x t X; try const; try (apply ice_near; [exact X|lra]). Qed.
Lemma cls0 x : near12 (gate_of 0 x) (trapv 0 (dval x)).
Proof.
  opengate x t X; try const.
  all: apply N_abs with (1 / 2 * (t - -3) / 2); [|rewrite Rabs_pos_eq; lra].
  all: apply N_divn with (e := 8 / 10 ^ 13); [|vint|lra|absd|lra|unfold ud, taud; lra].
  all: apply rampx; [sl 2%Q 2 4%Z (1 / 2)|lra|vint|exact X|absd].
Qed.
Lemma cls9 x : near12 (gate_of 9 x) (trapv 9 (dval x)).
Proof.
  opengate x t X; try const.
  all: apply N_abs with (2 / 3 * (t - -2) / 3); [|rewrite Rabs_pos_eq; lra].
  all: apply N_divn with (e := 8 / 10 ^ 13); [|vint|lra|absd|lra|unfold ud, taud; lra].
  all: apply rampx; [sl 2%Q 2 3%Z (2 / 3)|lra|vint|exact X|absd].
Qed.
Lemma trap_near c x : (c <= 9)%nat -> near12 (gate_of c x) (trapv c (dval x)).
Proof.
  intro H.
  exact (match c return (c <= 9)%nat -> near12 (gate_of c x) (trapv c (dval x)) with
    | 0 => fun _ => cls0 x | 1 => fun _ => cls1 x | 2 => fun _ => cls2 x | 3 => fun _ => cls3 x | 4 => fun _ => cls4 x
    | 5 => fun _ => cls5 x | 6 => fun _ => cls6 x | 7 => fun _ => cls7 x | 8 => fun _ => cls8 x | 9 => fun _ => cls9 x
    | _ => fun L => ltac:(exfalso; lia) end%nat H).
Qed.
End TE.
