(** * Rounding errors of applying a transform to a point *)
From Coq Require Import ZArith Bool Reals Floats.SpecFloat List Lia Lra Psatz.
From Flocq Require Import Zaux Raux Defs BinarySingleNaN.
From Verif Require Import Scalar LinearMath Instances RealSlerp RealQuat RealMatrix SpecRound FloatErr FloatMore RoundNorm RoundOps RoundChain RoundSlerp SpecReal SpecApply.
Open Scope R_scope.
Local Notation u := uro.
Local Notation "a +! b" := (SFadd prec64 emax64 a b) (at level 50, left associativity).
Local Notation "a -! b" := (SFsub prec64 emax64 a b) (at level 50, left associativity).
Local Notation "a *! b" := (SFmul prec64 emax64 a b) (at level 40, left associativity).
Local Notation "a /! b" := (SFdiv prec64 emax64 a b) (at level 40, left associativity).

(** product of an exact factor and an approximated one *)
Lemma ap_scale : forall x y r e A, finite x -> ap y r e -> Rabs (val x * r) <= A -> A + Rabs (val x) * e <= big ->
  ap (x *! y) (val x * r) (Rabs (val x) * e + u * (A + Rabs (val x) * e) + eta).
Proof.
  intros x y r e A Fx (Fy & Hy) HA HB.
  assert (E : Rabs (val x * val y - val x * r) <= Rabs (val x) * e).
  { replace (val x * val y - val x * r) with (val x * (val y - r)) by ring. rewrite Rabs_mult. apply Rmult_le_compat_l; [apply Rabs_pos|exact Hy]. }
  destruct (fmul_ok x y Fx Fy) as (F & V). { pose proof (abs_close _ _ _ _ E HA). lra. }
  split; [exact F|]. rewrite V. apply rnd_close; assumption.
Qed.

(** ** The nine numbers of the matrix *)
Section M.
Variables (x y z w : f64).
Hypothesis (Fx : finite x) (Fy : finite y) (Fz : finite z) (Fw : finite w).
Let a2 := val x * val x + val y * val y + val z * val z + val w * val w.
Hypothesis (Ha : 1 / 4 <= a2 <= 4).
Let A := 2 / a2.
Let dd := x *! x +! y *! y +! z *! z +! w *! w.

Lemma sq_ap : forall v : f64, finite v -> val v * val v <= 4 -> ap (v *! v) (val v * val v) (u * (val v * val v) + eta).
Proof.
  intros v F B. pose proof big_big. apply ap_mul; try assumption; [|lra]. rewrite Rabs_pos_eq; [lra|]. apply Rle_0_sqr.
Qed.
Lemma dd_ap : ap dd a2 (33 / 8 * u * a2 + 8 * eta).
Proof.
  pose proof (Rle_0_sqr (val x)) as X. pose proof (Rle_0_sqr (val y)) as Y. pose proof (Rle_0_sqr (val z)) as Z. pose proof (Rle_0_sqr (val w)) as W.
  unfold Rsqr in *. pose proof big_big as BB. pose proof uro_pos as U. pose proof eta_pos as E0. pose proof eta_u as EU.
  pose proof (sq_ap x Fx ltac:(unfold a2 in Ha; lra)) as H1. pose proof (sq_ap y Fy ltac:(unfold a2 in Ha; lra)) as H2.
  pose proof (sq_ap z Fz ltac:(unfold a2 in Ha; lra)) as H3. pose proof (sq_ap w Fw ltac:(unfold a2 in Ha; lra)) as H4.
  unfold dd, a2 in *.
  set (X2 := val x * val x) in *. set (Y2 := val y * val y) in *. set (Z2 := val z * val z) in *. set (W2 := val w * val w) in *.
  assert (uX : 0 <= u * X2) by (apply Rmult_le_pos; lra). assert (uY : 0 <= u * Y2) by (apply Rmult_le_pos; lra).
  assert (uZ : 0 <= u * Z2) by (apply Rmult_le_pos; lra). assert (uW : 0 <= u * W2) by (apply Rmult_le_pos; lra).
  pose proof (ap_add _ _ _ _ _ _ (X2 + Y2) H1 H2 ltac:(rewrite Rabs_pos_eq; lra) ltac:(num)) as S1.
  pose proof (ap_add _ _ _ _ _ _ (X2 + Y2 + Z2) S1 H3 ltac:(rewrite Rabs_pos_eq; lra) ltac:(num)) as S2.
  pose proof (ap_add _ _ _ _ _ _ (X2 + Y2 + Z2 + W2) S2 H4 ltac:(rewrite Rabs_pos_eq; lra) ltac:(num)) as S3.
  eapply ap_weaken; [exact S3|]. clear - uX uY uZ uW E0 X Y Z W. rewrite uro_val in *. lra.
Qed.
Lemma A_pos : 1 / 2 <= A <= 8.
Proof.
  unfold A. split.
  - apply (Rmult_le_reg_r a2); [lra|]. unfold Rdiv. rewrite (Rmult_assoc 2), Rinv_l by lra. lra.
  - apply (Rmult_le_reg_r a2); [lra|]. unfold Rdiv. rewrite (Rmult_assoc 2), Rinv_l by lra. lra.
Qed.
Variable tw : f64.
Hypothesis (Ft : finite tw) (Vt : val tw = 2).
Lemma s_ap : ap (tw /! dd) A (21 / 4 * u * A).
Proof.
  pose proof dd_ap as (Fd & Ed). pose proof A_pos as PA. pose proof big_big as BB. pose proof uro_pos as U. pose proof eta_pos as E0. pose proof eta_u as EU.
  assert (Ea : 8 * eta <= u / 1000000 * a2).
  { apply Rle_trans with (u / 1000000 * (1 / 4)); [lra|]. apply Rmult_le_compat_l; lra. }
  assert (Ed' : Rabs (val dd - a2) <= 413 / 100 * u * a2).
  { eapply Rle_trans; [exact Ed|]. assert (0 <= u * a2) by (apply Rmult_le_pos; lra). lra. }
  assert (Dl : 999 / 1000 * a2 <= val dd).
  { pose proof (Rle_abs (- (val dd - a2))) as Q. rewrite Rabs_Ropp in Q. rewrite uro_val in *. lra. }
  set (D := val dd) in *.
  assert (Q : Rabs (2 / D - A) <= 415 / 100 * u * A).
  { apply (Rmult_le_reg_r D); [lra|]. rewrite <- (Rabs_pos_eq D) at 2 by lra. rewrite <- Rabs_mult.
    replace ((2 / D - A) * D) with (- (A * (D - a2))) by (unfold A; field; lra). rewrite Rabs_Ropp, Rabs_mult, (Rabs_pos_eq A) by lra.
    apply Rle_trans with (A * (413 / 100 * u * a2)); [apply Rmult_le_compat_l; lra|].
    replace (A * (413 / 100 * u * a2)) with ((A * u) * (413 / 100 * a2)) by ring. replace (415 / 100 * u * A * D) with ((A * u) * (415 / 100 * D)) by ring.
    apply Rmult_le_compat_l; [apply Rmult_le_pos; lra|lra]. }
  destruct (fdiv_ok tw dd Ft Fd) as (F & V); [fold D; lra| |].
  { rewrite Vt. fold D. eapply Rle_trans; [apply (abs_close _ _ _ A Q); rewrite Rabs_pos_eq; lra|]. rewrite uro_val in *. lra. }
  split; [exact F|]. rewrite V, Vt. fold D. eapply Rle_trans; [apply (rnd_close _ _ _ A Q); rewrite Rabs_pos_eq; lra|].
  assert (UA : 0 <= u * A) by (apply Rmult_le_pos; lra). assert (eta <= u * A / 1000) by (clear - EU PA U; nra).
  assert (u * (415 / 100 * u * A) <= u * A / 1000).
  { replace (u * (415 / 100 * u * A)) with ((u * A) * (415 / 100 * u)) by ring. unfold Rdiv. apply Rmult_le_compat_l; [exact UA|]. rewrite uro_val. lra. }
  lra.
Qed.
Let s := tw /! dd.
Lemma le2 : forall v : R, v * v <= a2 -> Rabs v <= 2.
Proof. intros v H. apply Rabs_le. destruct Ha. nra. Qed.

(** fl (p * fl (q * s)) for 2 p q / |.|^2 *)
Lemma entry_ap : forall p q : f64, finite p -> finite q -> val p * val p <= a2 -> val q * val q <= a2 ->
  ap (p *! (q *! s)) (val p * (val q * A)) (61 / 8 * u * (Rabs (val p) * Rabs (val q) * A) + 4 * eta).
Proof.
  intros p q Fp Fq Hp Hq. apply le2 in Hp, Hq. pose proof s_ap as S. fold s in S. pose proof A_pos as PA. pose proof big_big as BB. pose proof uro_pos as U. pose proof eta_pos as E0. pose proof eta_u as EU.
  pose proof (Rabs_pos (val p)) as P0. pose proof (Rabs_pos (val q)) as Q0.
  set (Y := Rabs (val q) * A). assert (Y0 : 0 <= Y <= 16) by (unfold Y; split; [apply Rmult_le_pos; lra|nra]).
  assert (UY : 0 <= u * Y) by (apply Rmult_le_pos; lra).
  assert (EQ : Rabs (val q) * (21 / 4 * u * A) = 21 / 4 * (u * Y)) by (unfold Y; ring).
  assert (UUY : u * (21 / 4 * (u * Y)) <= u * Y / 100).
  { replace (u * (21 / 4 * (u * Y))) with ((u * Y) * (21 / 4 * u)) by ring. unfold Rdiv. apply Rmult_le_compat_l; [exact UY|]. rewrite uro_val. lra. }
  assert (H1 : ap (q *! s) (val q * A) (13 / 2 * (u * Y) + eta)).
  { eapply ap_weaken; [apply (ap_scale q s A _ Y Fq S)|].
    - rewrite Rabs_mult, (Rabs_pos_eq A) by lra. fold Y. lra.
    - rewrite EQ. rewrite uro_val in *. lra.
    - rewrite EQ. lra. }
  set (P := Rabs (val p) * Rabs (val q) * A). assert (EP : Rabs (val p) * Y = P) by (unfold P, Y; ring).
  assert (P1 : 0 <= P <= 32) by (rewrite <- EP; split; [apply Rmult_le_pos; lra|nra]).
  assert (UP : 0 <= u * P) by (apply Rmult_le_pos; lra).
  assert (EE : Rabs (val p) * (13 / 2 * (u * Y) + eta) = 13 / 2 * (u * P) + Rabs (val p) * eta) by (rewrite <- EP; ring).
  assert (PE : 0 <= Rabs (val p) * eta <= 2 * eta) by (split; [apply Rmult_le_pos; lra|apply Rmult_le_compat_r; lra]).
  eapply ap_weaken; [apply (ap_scale p (q *! s) (val q * A) _ P Fp H1)|].
  - rewrite !Rabs_mult, (Rabs_pos_eq A) by lra. unfold P. lra.
  - rewrite EE. rewrite uro_val in *. lra.
  - rewrite EE. assert (u * (13 / 2 * (u * P)) <= u * P / 100).
    { replace (u * (13 / 2 * (u * P))) with ((u * P) * (13 / 2 * u)) by ring. unfold Rdiv. apply Rmult_le_compat_l; [exact UP|]. rewrite uro_val. lra. }
    assert (u * (Rabs (val p) * eta) <= eta / 100). { rewrite uro_val. lra. } lra.
Qed.

(** the sums of two of them *)
Lemma pair_bound : forall p q r t : R, p * p + q * q + r * r + t * t <= a2 -> 0 <= Rabs p * Rabs q * A /\ 0 <= Rabs r * Rabs t * A /\ Rabs p * Rabs q * A + Rabs r * Rabs t * A <= 1.
Proof.
  intros p q r t H. pose proof A_pos as PA. pose proof (Rabs_pos p). pose proof (Rabs_pos q). pose proof (Rabs_pos r). pose proof (Rabs_pos t).
  split; [apply Rmult_le_pos; [apply Rmult_le_pos; lra|lra]|]. split; [apply Rmult_le_pos; [apply Rmult_le_pos; lra|lra]|].
  assert (Sq : forall v, v * v = Rabs v * Rabs v) by (intros v; destruct (Rcase_abs v); [rewrite Rabs_left by lra|rewrite Rabs_pos_eq by lra]; ring).
  rewrite (Sq p), (Sq q), (Sq r), (Sq t) in H.
  assert (B : Rabs p * Rabs q + Rabs r * Rabs t <= a2 / 2).
  { pose proof (Rle_0_sqr (Rabs p - Rabs q)) as K1. pose proof (Rle_0_sqr (Rabs r - Rabs t)) as K2. unfold Rsqr in *. lra. }
  replace (Rabs p * Rabs q * A + Rabs r * Rabs t * A) with ((Rabs p * Rabs q + Rabs r * Rabs t) * A) by ring.
  apply Rle_trans with (a2 / 2 * A); [apply Rmult_le_compat_r; lra|]. unfold A. right. field. lra.
Qed.
Lemma diag_bound : forall p q : R, p * p + q * q <= a2 -> 0 <= p * (p * A) /\ 0 <= q * (q * A) /\ p * (p * A) + q * (q * A) <= 2 /\
  Rabs p * Rabs p * A = p * (p * A) /\ Rabs q * Rabs q * A = q * (q * A).
Proof.
  intros p q H. pose proof A_pos as PA.
  assert (Sq : forall v, Rabs v * Rabs v = v * v) by (intros v; destruct (Rcase_abs v); [rewrite Rabs_left by lra|rewrite Rabs_pos_eq by lra]; ring).
  rewrite !Sq. pose proof (Rle_0_sqr p) as K1. pose proof (Rle_0_sqr q) as K2. unfold Rsqr in *.
  repeat split; try ring; [rewrite <- Rmult_assoc; apply Rmult_le_pos; lra..|].
  replace (p * (p * A) + q * (q * A)) with ((p * p + q * q) * A) by ring. apply Rle_trans with (a2 * A); [apply Rmult_le_compat_r; lra|]. unfold A. right. field. lra.
Qed.
Lemma off_sub : forall p q r t : f64, finite p -> finite q -> finite r -> finite t -> val p * val p + val q * val q + val r * val r + val t * val t <= a2 ->
  ap (p *! (q *! s) -! r *! (t *! s)) (val p * (val q * A) - val r * (val t * A)) (9 * u) /\
  ap (p *! (q *! s) +! r *! (t *! s)) (val p * (val q * A) + val r * (val t * A)) (9 * u).
Proof.
  intros p q r t Fp Fq Fr Ftt H. pose proof A_pos as PA. pose proof big_big as BB. pose proof uro_pos as U. pose proof eta_pos as E0. pose proof eta_u as EU.
  pose proof (Rle_0_sqr (val p)) as K1. pose proof (Rle_0_sqr (val q)) as K2. pose proof (Rle_0_sqr (val r)) as K3. pose proof (Rle_0_sqr (val t)) as K4. unfold Rsqr in *.
  pose proof (entry_ap p q Fp Fq ltac:(lra) ltac:(lra)) as H1. pose proof (entry_ap r t Fr Ftt ltac:(lra) ltac:(lra)) as H2.
  destruct (pair_bound _ _ _ _ H) as (B1 & B2 & B3).
  assert (A1 : Rabs (val p * (val q * A)) <= Rabs (val p) * Rabs (val q) * A) by (rewrite !Rabs_mult, (Rabs_pos_eq A) by lra; lra).
  assert (A2 : Rabs (val r * (val t * A)) <= Rabs (val r) * Rabs (val t) * A) by (rewrite !Rabs_mult, (Rabs_pos_eq A) by lra; lra).
  set (P := Rabs (val p) * Rabs (val q) * A) in *. set (R0 := Rabs (val r) * Rabs (val t) * A) in *. clearbody P R0.
  assert (UP : u * P + u * R0 <= u) by (rewrite <- Rmult_plus_distr_l; rewrite <- (Rmult_1_r u) at 2; apply Rmult_le_compat_l; lra).
  assert (0 <= u * P) by (apply Rmult_le_pos; lra). assert (0 <= u * R0) by (apply Rmult_le_pos; lra).
  split.
  - eapply ap_weaken; [apply (ap_sub _ _ _ _ _ _ 1 H1 H2); [eapply Rle_trans; [apply (abs2m _ _ _ _ A1 A2)|exact B3]|rewrite uro_val in *; lra]|]. rewrite uro_val in *. lra.
  - eapply ap_weaken; [apply (ap_add _ _ _ _ _ _ 1 H1 H2); [eapply Rle_trans; [apply (abs2 _ _ _ _ A1 A2)|exact B3]|rewrite uro_val in *; lra]|]. rewrite uro_val in *. lra.
Qed.
Variable one : f64.
Hypothesis (Fo : finite one) (Vo : val one = 1).
Lemma on_diag : forall p q : f64, finite p -> finite q -> val p * val p + val q * val q <= a2 ->
  ap (one -! (p *! (p *! s) +! q *! (q *! s))) (1 - (val p * (val p * A) + val q * (val q * A))) (19 * u).
Proof.
  intros p q Fp Fq H. pose proof A_pos as PA. pose proof big_big as BB. pose proof uro_pos as U. pose proof eta_pos as E0. pose proof eta_u as EU.
  pose proof (Rle_0_sqr (val p)) as K1. pose proof (Rle_0_sqr (val q)) as K2. unfold Rsqr in *.
  pose proof (entry_ap p p Fp Fp ltac:(lra) ltac:(lra)) as H1. pose proof (entry_ap q q Fq Fq ltac:(lra) ltac:(lra)) as H2.
  destruct (diag_bound _ _ H) as (B1 & B2 & B3 & E1 & E2). rewrite E1 in H1. rewrite E2 in H2.
  set (P := val p * (val p * A)) in *. set (R0 := val q * (val q * A)) in *. clearbody P R0.
  assert (UP : u * P + u * R0 <= 2 * u) by (rewrite <- Rmult_plus_distr_l, (Rmult_comm 2); apply Rmult_le_compat_l; lra).
  assert (0 <= u * P) by (apply Rmult_le_pos; lra). assert (0 <= u * R0) by (apply Rmult_le_pos; lra).
  assert (S1 : ap (p *! (p *! s) +! q *! (q *! s)) (P + R0) (35 / 2 * u)).
  { eapply ap_weaken; [apply (ap_add _ _ _ _ _ _ 2 H1 H2); [rewrite Rabs_pos_eq; lra|rewrite uro_val in *; lra]|]. rewrite uro_val in *. lra. }
  assert (O1 : ap one 1 0) by (split; [exact Fo|]; rewrite Vo, Rminus_eq_0, Rabs_R0; lra).
  eapply ap_weaken; [apply (ap_sub _ _ _ _ _ _ 1 O1 S1); [apply Rabs_le; lra|rewrite uro_val in *; lra]|]. rewrite uro_val in *. lra.
Qed.
End M.

(** ** The matrix applied to a vector *)
Lemma N4_sq_le : forall a b c d e, 0 <= e -> a * a + b * b + c * c + d * d <= e * e -> N4 a b c d <= e.
Proof. intros a b c d e E H. apply le_sq; [exact E|]. rewrite N4_sq. exact H. Qed.
(** a computed row [m] near the exact row [r] of length at most 1, times a vector *)
Lemma row_ap : forall m1 m2 m3 v1 v2 v3 r1 r2 r3 e1 e2 e3, ap m1 r1 e1 -> ap m2 r2 e2 -> ap m3 r3 e3 ->
  e1 * e1 + e2 * e2 + e3 * e3 <= 23 * u * (23 * u) -> 0 <= e1 -> 0 <= e2 -> 0 <= e3 ->
  r1 * r1 + r2 * r2 + r3 * r3 <= 1 -> finite v1 -> finite v2 -> finite v3 -> N4 (val v1) (val v2) (val v3) 0 <= big / 4 ->
  ap (m1 *! v1 +! m2 *! v2 +! m3 *! v3) (r1 * val v1 + r2 * val v2 + r3 * val v3) (27 * u * N4 (val v1) (val v2) (val v3) 0 + 6 * eta).
Proof.
  intros m1 m2 m3 v1 v2 v3 r1 r2 r3 e1 e2 e3 (Fm1 & H1) (Fm2 & H2) (Fm3 & H3) He P1 P2 P3 Hr F1 F2 F3 HB.
  pose proof big_big as BB. pose proof uro_pos as U. pose proof eta_pos as E0. pose proof eta_u as EU. pose proof eta_1 as E1.
  set (V := N4 (val v1) (val v2) (val v3) 0) in *. assert (V0 : 0 <= V) by apply N4_pos.
  assert (UV : 0 <= u * V) by (apply Rmult_le_pos; lra).
  assert (NE : N4 (val m1 - r1) (val m2 - r2) (val m3 - r3) 0 <= 23 * u).
  { apply Rle_trans with (N4 e1 e2 e3 0); [apply N4_mono; try assumption; rewrite Rabs_R0; lra|]. apply N4_sq_le; lra. }
  assert (NR : N4 r1 r2 r3 0 <= 1) by (apply N4_sq_le; lra).
  assert (NM : N4 (val m1) (val m2) (val m3) 0 <= 1 + 23 * u).
  { replace (val m1) with (r1 + (val m1 - r1)) by ring. replace (val m2) with (r2 + (val m2 - r2)) by ring. replace (val m3) with (r3 + (val m3 - r3)) by ring.
    replace 0 with (0 + 0) at 1 by ring. eapply Rle_trans; [apply N4_triangle|]. lra. }
  pose proof (N4_cauchy_abs (val m1) (val m2) (val m3) 0 (val v1) (val v2) (val v3) 0) as C. fold V in C. rewrite !Rabs_mult, Rabs_R0 in C.
  assert (MV : N4 (val m1) (val m2) (val m3) 0 * V <= (1 + 23 * u) * V) by (apply Rmult_le_compat_r; assumption).
  set (A1 := Rabs (val m1) * Rabs (val v1)) in *. set (A2 := Rabs (val m2) * Rabs (val v2)) in *. set (A3 := Rabs (val m3) * Rabs (val v3)) in *.
  assert (B1 : Rabs (val m1 * val v1) <= A1) by (rewrite Rabs_mult; apply Rle_refl).
  assert (B2 : Rabs (val m2 * val v2) <= A2) by (rewrite Rabs_mult; apply Rle_refl).
  assert (B3 : Rabs (val m3 * val v3) <= A3) by (rewrite Rabs_mult; apply Rle_refl).
  assert (Q1 : 0 <= A1) by (pose proof (Rabs_pos (val m1 * val v1)); lra). assert (Q2 : 0 <= A2) by (pose proof (Rabs_pos (val m2 * val v2)); lra). assert (Q3 : 0 <= A3) by (pose proof (Rabs_pos (val m3 * val v3)); lra).
  assert (UUV : u * V <= V / 1000000) by (unfold Rdiv; rewrite (Rmult_comm V); apply Rmult_le_compat_r; [exact V0|rewrite uro_val; lra]).
  assert (S : A1 + A2 + A3 <= V + 23 * (u * V)) by lra. 
  assert (SB : A1 + A2 + A3 <= big / 3) by lra. clear C MV.
  pose proof (ap_mul m1 v1 A1 Fm1 F1 B1 ltac:(lra)) as K1. pose proof (ap_mul m2 v2 A2 Fm2 F2 B2 ltac:(lra)) as K2. pose proof (ap_mul m3 v3 A3 Fm3 F3 B3 ltac:(lra)) as K3.
  assert (U1 : 0 <= u * A1) by (apply Rmult_le_pos; lra). assert (U2 : 0 <= u * A2) by (apply Rmult_le_pos; lra). assert (U3 : 0 <= u * A3) by (apply Rmult_le_pos; lra).
  pose proof (ap_add _ _ _ _ _ _ (A1 + A2) K1 K2 (abs2 _ _ _ _ B1 B2) ltac:(num)) as S1.
  pose proof (ap_add _ _ _ _ _ _ (A1 + A2 + A3) S1 K3 (abs2 _ _ _ _ (abs2 _ _ _ _ B1 B2) B3) ltac:(num)) as (FS & ES).
  split; [exact FS|].
  replace (val (m1 *! v1 +! m2 *! v2 +! m3 *! v3) - (r1 * val v1 + r2 * val v2 + r3 * val v3))
    with ((val (m1 *! v1 +! m2 *! v2 +! m3 *! v3) - (val m1 * val v1 + val m2 * val v2 + val m3 * val v3)) + ((val m1 - r1) * val v1 + (val m2 - r2) * val v2 + (val m3 - r3) * val v3)) by ring.
  eapply Rle_trans; [apply Rabs_triang|].
  assert (T : Rabs ((val m1 - r1) * val v1 + (val m2 - r2) * val v2 + (val m3 - r3) * val v3) <= 23 * u * V).
  { eapply Rle_trans; [|apply Rmult_le_compat_r; [exact V0|exact NE]]. pose proof (N4_cauchy_abs (val m1 - r1) (val m2 - r2) (val m3 - r3) 0 (val v1) (val v2) (val v3) 0) as C.
    rewrite !Rabs_mult, Rabs_R0 in C. eapply Rle_trans; [apply Rabs_triang|]. eapply Rle_trans; [apply Rplus_le_compat_r, Rabs_triang|]. rewrite !Rabs_mult. fold V in C. lra. }
  assert (US : u * A1 + u * A2 + u * A3 <= u * V + u * V / 1000).
  { rewrite <- !Rmult_plus_distr_l. apply Rle_trans with (u * (V + 23 * (u * V))); [apply Rmult_le_compat_l; lra|].
    assert (u * (23 * (u * V)) <= u * V / 1000); [|lra]. replace (u * (23 * (u * V))) with ((u * V) * (23 * u)) by ring. unfold Rdiv. apply Rmult_le_compat_l; [exact UV|]. rewrite uro_val. lra. }
  assert (G : forall t, 0 <= t -> 0 <= u * t <= t / 1000000) by (intros t Ht; split; [apply Rmult_le_pos; lra|unfold Rdiv; rewrite (Rmult_comm t); apply Rmult_le_compat_r; [exact Ht|rewrite uro_val; lra]]).
  eapply Rle_trans; [apply Rplus_le_compat; [exact ES|exact T]|].
  clear - US T U1 U2 U3 E0 UV EU U. rewrite uro_val in *. lra.
Qed.

Section V.
Context {lm : libm}.
Notation fq := (quat (F64 lm)).
Notation fv := (vec3 (F64 lm)).

Lemma qnorm_sq : forall q : quat RS, qnorm q * qnorm q = qx q * qx q + qy q * qy q + qz q * qz q + qw q * qw q.
Proof. intros q. rewrite qnorm_N4. apply N4_sq. Qed.
Lemma turned_matrix : forall (q : quat RS) (v : vec3 RS), nonzero q -> turned q v = mmulv (mfromQuat q) v.
Proof.
  intros [x y z w] [a b c] H. unfold turned. rewrite qnorm_sq. unfold nonzero in H. cbn [qx qy qz qw] in *. cbn [RS scar] in H.
  unfold rplus, rtimes, rcross, mmulv, mfromQuat, vdot, qlength2, qdot. cbn [qx qy qz qw vx vy vz m0 m1 m2]. runf. apply f_equal3; cbn [RS scar]; field; lra.
Qed.

(** The matrix of a quaternion of length between 1/2 and 2, applied to a vector *)
Theorem mulv_err : forall (q : fq) (v : fv), qfinite q -> vfinite v -> 1 / 2 <= qnorm (qval q) <= 2 -> vnorm (vval v) <= big / 4 ->
  vfinite (mmulv (mfromQuat q) v) /\
  vdist (vval (mmulv (mfromQuat q) v)) (turned (qval q) (vval v)) <= 54 * u * vnorm (vval v) + 12 * eta.
Proof.
  intros [x y z w] [a b c] (Fx & Fy & Fz & Fw) (Fa & Fb & Fc) Hq Hv. cbn [qx qy qz qw vx vy vz] in *.
  pose proof uro_pos as U. pose proof eta_pos as E0.
  assert (Sq : 1 / 4 <= val x * val x + val y * val y + val z * val z + val w * val w <= 4).
  { pose proof (qnorm_sq (qval (@Q4 (F64 lm) x y z w))) as S. cbn [qval qx qy qz qw] in S. cbn [RS scar] in S. rewrite <- S. set (n := qnorm _) in *. nra. }
  assert (Nz : nonzero (qval (@Q4 (F64 lm) x y z w))) by (unfold nonzero; cbn [qval qx qy qz qw RS scar]; lra).
  rewrite turned_matrix by exact Nz. pose proof (mfromQuat_rotation _ Nz) as Rt.
  destruct (@two_ok lm) as (Ft & Vt). destruct (@one_ok lm) as (Fo & Vo).
  set (s := SFdiv prec64 emax64 (@two (F64 lm)) (x *! x +! y *! y +! z *! z +! w *! w)).
  set (A := 2 / (val x * val x + val y * val y + val z * val z + val w * val w)).
  pose proof (on_diag x y z w Fx Fy Fz Fw Sq _ Ft Vt _ Fo Vo) as Dg. cbv zeta in Dg. fold s A in Dg.
  pose proof (off_sub x y z w Fx Fy Fz Fw Sq _ Ft Vt) as Of. cbv zeta in Of. fold s A in Of.
  pose proof (Rle_0_sqr (val x)) as X2. pose proof (Rle_0_sqr (val y)) as Y2. pose proof (Rle_0_sqr (val z)) as Z2. pose proof (Rle_0_sqr (val w)) as W2. unfold Rsqr in *.
  destruct (Of x y w z Fx Fy Fw Fz ltac:(lra)) as (M01 & M10). destruct (Of x z w y Fx Fz Fw Fy ltac:(lra)) as (M20 & M02). destruct (Of y z w x Fy Fz Fw Fx ltac:(lra)) as (M12 & M21).
  pose proof (Dg y z Fy Fz ltac:(lra)) as M00. pose proof (Dg x z Fx Fz ltac:(lra)) as M11. pose proof (Dg x y Fx Fy ltac:(lra)) as M22. clear Dg Of.
  assert (EM : mfromQuat (@Q4 (F64 lm) x y z w) =
     @M3 (F64 lm) (@V3 (F64 lm) (@sone (F64 lm) -! (y *! (y *! s) +! z *! (z *! s))) (x *! (y *! s) -! w *! (z *! s)) (x *! (z *! s) +! w *! (y *! s)))
                  (@V3 (F64 lm) (x *! (y *! s) +! w *! (z *! s)) (@sone (F64 lm) -! (x *! (x *! s) +! z *! (z *! s))) (y *! (z *! s) -! w *! (x *! s)))
                  (@V3 (F64 lm) (x *! (z *! s) -! w *! (y *! s)) (y *! (z *! s) +! w *! (x *! s)) (@sone (F64 lm) -! (x *! (x *! s) +! y *! (y *! s))))) by reflexivity.
  assert (ER : mfromQuat (qval (@Q4 (F64 lm) x y z w)) =
     @M3 RS (@V3 RS (1 - (val y * (val y * A) + val z * (val z * A))) (val x * (val y * A) - val w * (val z * A)) (val x * (val z * A) + val w * (val y * A)))
            (@V3 RS (val x * (val y * A) + val w * (val z * A)) (1 - (val x * (val x * A) + val z * (val z * A))) (val y * (val z * A) - val w * (val x * A)))
            (@V3 RS (val x * (val z * A) - val w * (val y * A)) (val y * (val z * A) + val w * (val x * A)) (1 - (val x * (val x * A) + val y * (val y * A))))).
  { unfold mfromQuat, qlength2, qdot, qval. cbn [qx qy qz qw]. runf. unfold A. meq; field; lra. }
  rewrite EM. rewrite ER in Rt |- *. clear EM ER.
  set (r00 := 1 - (val y * (val y * A) + val z * (val z * A))) in *. set (r01 := val x * (val y * A) - val w * (val z * A)) in *. set (r02 := val x * (val z * A) + val w * (val y * A)) in *.
  set (r10 := val x * (val y * A) + val w * (val z * A)) in *. set (r11 := 1 - (val x * (val x * A) + val z * (val z * A))) in *. set (r12 := val y * (val z * A) - val w * (val x * A)) in *.
  set (r20 := val x * (val z * A) - val w * (val y * A)) in *. set (r21 := val y * (val z * A) + val w * (val x * A)) in *. set (r22 := 1 - (val x * (val x * A) + val y * (val y * A))) in *.
  set (c00 := @sone (F64 lm) -! (y *! (y *! s) +! z *! (z *! s))) in *. set (c01 := x *! (y *! s) -! w *! (z *! s)) in *. set (c02 := x *! (z *! s) +! w *! (y *! s)) in *.
  set (c10 := x *! (y *! s) +! w *! (z *! s)) in *. set (c11 := @sone (F64 lm) -! (x *! (x *! s) +! z *! (z *! s))) in *. set (c12 := y *! (z *! s) -! w *! (x *! s)) in *.
  set (c20 := x *! (z *! s) -! w *! (y *! s)) in *. set (c21 := y *! (z *! s) +! w *! (x *! s)) in *. set (c22 := @sone (F64 lm) -! (x *! (x *! s) +! y *! (y *! s))) in *.
  clearbody r00 r01 r02 r10 r11 r12 r20 r21 r22 c00 c01 c02 c10 c11 c12 c20 c21 c22.
  assert (Rows : r00 * r00 + r01 * r01 + r02 * r02 = 1 /\ r10 * r10 + r11 * r11 + r12 * r12 = 1 /\ r20 * r20 + r21 * r21 + r22 * r22 = 1).
  { unfold rotation in Rt. exact (proj1 Rt). }
  destruct Rows as (R0 & R1 & R2).
  assert (NV : vnorm (vval (@V3 (F64 lm) a b c)) = N4 (val a) (val b) (val c) 0) by (rewrite vnorm_N4; reflexivity). rewrite NV in *.
  assert (Sm : forall e1 e2 e3, e1 = 19 * u /\ e2 = 9 * u /\ e3 = 9 * u \/ e1 = 9 * u /\ e2 = 19 * u /\ e3 = 9 * u \/ e1 = 9 * u /\ e2 = 9 * u /\ e3 = 19 * u -> e1 * e1 + e2 * e2 + e3 * e3 <= 23 * u * (23 * u)).
  { intros e1 e2 e3 D. assert (0 <= u * u) by (apply Rmult_le_pos; lra). destruct D as [(-> & -> & ->)|[(-> & -> & ->)|(-> & -> & ->)]]; lra. }
  destruct (row_ap _ _ _ a b c _ _ _ _ _ _ M00 M01 M02 ltac:(apply Sm; auto) ltac:(lra) ltac:(lra) ltac:(lra) ltac:(lra) Fa Fb Fc Hv) as (G0 & D0).
  destruct (row_ap _ _ _ a b c _ _ _ _ _ _ M10 M11 M12 ltac:(apply Sm; auto) ltac:(lra) ltac:(lra) ltac:(lra) ltac:(lra) Fa Fb Fc Hv) as (G1 & D1).
  destruct (row_ap _ _ _ a b c _ _ _ _ _ _ M20 M21 M22 ltac:(apply Sm; auto) ltac:(lra) ltac:(lra) ltac:(lra) ltac:(lra) Fa Fb Fc Hv) as (G2 & D2).
  split; [split; [exact G0|split; [exact G1|exact G2]]|].
  assert (N0 : 0 <= N4 (val a) (val b) (val c) 0) by apply N4_pos.
  assert (UN : 0 <= u * N4 (val a) (val b) (val c) 0) by (apply Rmult_le_pos; lra).
  unfold vdist. rewrite vnorm_N4. unfold mmulv, vdot, vval. cbn [vx vy vz m0 m1 m2]. cbn [F64 RS scar sadd smul ssub].
  replace 0 with (0 - 0) at 1 by ring. eapply Rle_trans; [apply (dist4 _ _ _ _ _ _ _ _ (27 * u * N4 (val a) (val b) (val c) 0 + 6 * eta)); [lra|exact D0|exact D1|exact D2|rewrite Rminus_eq_0, Rabs_R0; lra]|]. lra.
Qed.
End V.
