(** * How far tf2Atan2Fast is from atan2 (C97) *)
From Coq Require Import ZArith Reals Lra Psatz.
From Verif Require Import Scalar Instances LinearMath LinearExtra DiagProofs RealSlerp RealEuler LinearMore.
Open Scope R_scope.

(** pi/4 r - atan r stays within 1/8 *)
Lemma pi_bounds : 3 < PI <= 4.
Proof. split; [pose proof PI2_3_2; unfold Rdiv in *; lra|exact PI_4]. Qed.
Lemma slope : forall a b : R, 0 <= a -> a < b -> b <= 1 ->
  - (1 - PI / 4) * (b - a) <= (PI / 4 * b - atan b) - (PI / 4 * a - atan a) <= (PI / 4 - / 2) * (b - a).
Proof.
  intros a b Ha Hab Hb.
  destruct (MVT_cor2 (fun r => PI / 4 * r - atan r) (fun r => PI / 4 * 1 - / (1 + r ^ 2)) a b Hab) as (c & E & C1 & C2).
  { intros c Hc. apply derivable_pt_lim_minus; [apply derivable_pt_lim_scal, derivable_pt_lim_id|apply derivable_pt_lim_atan]. }
  rewrite E. assert (S : 1 <= 1 + c ^ 2 <= 2) by nra.
  assert (I : / 2 <= / (1 + c ^ 2) <= 1). { split; [apply Rinv_le_contravar; lra|]. rewrite <- Rinv_1. apply Rinv_le_contravar; lra. }
  split; apply Rmult_le_compat_r; lra.
Qed.
Lemma near_pos : forall r, 0 <= r <= 1 -> Rabs (PI / 4 * r - atan r) <= / 8.
Proof.
  intros r H. pose proof pi_bounds as P. set (f := PI / 4 * r - atan r).
  assert (A : - (1 - PI / 4) * r <= f <= (PI / 4 - / 2) * r).
  { destruct (Rle_lt_or_eq_dec 0 r (proj1 H)) as [L| <-].
    - pose proof (slope 0 r (Rle_refl 0) L (proj2 H)) as S. rewrite atan_0, Rmult_0_r, Rminus_0_r in S. fold f in S. lra.
    - unfold f. rewrite atan_0. lra. }
  assert (B : - (PI / 4 - / 2) * (1 - r) <= f <= (1 - PI / 4) * (1 - r)).
  { destruct (Rle_lt_or_eq_dec r 1 (proj2 H)) as [L|E].
    - pose proof (slope r 1 (proj1 H) L (Rle_refl 1)) as S. rewrite atan_1 in S. fold f in S. lra.
    - unfold f. rewrite E, atan_1. lra. }
  clearbody f. set (a := 1 - PI / 4) in *. replace (PI / 4 - / 2) with (/ 2 - a) in * by (unfold a; lra).
  assert (Ha : 0 <= a <= / 4) by (unfold a; lra). clearbody a. clear P.
  assert (Q : a * (/ 2 - a) <= / 16) by (pose proof (Rle_0_sqr (a - / 4)) as Z; unfold Rsqr in Z; lra).
  apply Rabs_le. split.
  - assert (X : (/ 2 - a) * - f <= (/ 2 - a) * (a * r)) by (apply Rmult_le_compat_l; lra).
    assert (Y : a * - f <= a * ((/ 2 - a) * (1 - r))) by (apply Rmult_le_compat_l; lra). lra.
  - assert (X : a * f <= a * ((/ 2 - a) * r)) by (apply Rmult_le_compat_l; lra).
    assert (Y : (/ 2 - a) * f <= (/ 2 - a) * (a * (1 - r))) by (apply Rmult_le_compat_l; lra). lra.
Qed.
Lemma near : forall r, -1 <= r <= 1 -> Rabs (PI / 4 * r - atan r) <= / 8.
Proof.
  intros r H. destruct (Rle_dec 0 r) as [L|L]; [apply near_pos; lra|].
  replace (PI / 4 * r - atan r) with (- (PI / 4 * (- r) - atan (- r))) by (rewrite atan_opp; ring). rewrite Rabs_Ropp. apply near_pos. lra.
Qed.
Lemma atan_small : forall r, -1 <= r <= 1 -> - (PI / 4) <= atan r <= PI / 4.
Proof.
  intros r H. rewrite <- atan_1, <- atan_opp. destruct H as [[L|L] [M|M]]; subst; split; try apply Rle_refl; try (apply Rlt_le, atan_increasing; lra).
Qed.
Lemma atan_above : forall r, -1 < r -> - (PI / 4) < atan r.
Proof. intros r H. rewrite <- atan_1, <- atan_opp. apply atan_increasing. exact H. Qed.

(** the angle of a point in the upper half plane *)
Lemma upper_angle : forall x Y, 0 <= Y -> 0 < x \/ 0 < Y \/ x < 0 ->
  exists r t : R, -1 <= r <= 1 /\ (0 < Y -> t < PI) /\ - PI < t <= PI /\
    (0 <= x -> r = (x - Y) / (x + Y) /\ t = PI / 4 - atan r) /\ (x < 0 -> r = (x + Y) / (Y - x) /\ t = 3 * (PI / 4) - atan r) /\
    exists k, 0 < k /\ x = k * cos t /\ Y = k * sin t.
Proof.
  intros x Y HY N. pose proof pi_bounds as P. assert (Q2 : 0 < sqrt 2) by (apply sqrt_lt_R0; lra).
  destruct (Rle_dec 0 x) as [Hx|Hx].
  - assert (D : 0 < x + Y) by lra. set (r := (x - Y) / (x + Y)).
    assert (R1 : 1 + r = 2 * x / (x + Y)) by (unfold r; field; lra). assert (R2 : 1 - r = 2 * Y / (x + Y)) by (unfold r; field; lra).
    assert (Hr : -1 <= r <= 1). { assert (0 <= 2 * x / (x + Y)) by (apply Rmult_le_pos; [lra|apply Rlt_le, Rinv_0_lt_compat; lra]). assert (0 <= 2 * Y / (x + Y)) by (apply Rmult_le_pos; [lra|apply Rlt_le, Rinv_0_lt_compat; lra]). lra. }
    exists r, (PI / 4 - atan r). pose proof (atan_small r Hr) as A. split; [exact Hr|]. split; [lra|]. split; [lra|]. split; [intros _; split; [unfold r|]; reflexivity|]. split; [intros C; lra|].
    destruct (cos_atan_pos r) as (C & S). assert (W : 0 < sqrt (1 + r²)) by (apply sqrt_lt_R0; unfold Rsqr; nra).
    exists ((x + Y) / 2 * sqrt 2 * sqrt (1 + r²)). split; [repeat apply Rmult_lt_0_compat; lra|].
    rewrite cos_minus, sin_minus, cos_PI4, sin_PI4, C, S. split.
    + transitivity ((x + Y) / 2 * (1 + r)); [rewrite R1; field; lra|field; lra].
    + transitivity ((x + Y) / 2 * (1 - r)); [rewrite R2; field; lra|field; lra].
  - assert (D : 0 < Y - x) by lra. set (r := (x + Y) / (Y - x)).
    assert (R1 : 1 + r = 2 * Y / (Y - x)) by (unfold r; field; lra). assert (R2 : 1 - r = 2 * - x / (Y - x)) by (unfold r; field; lra).
    assert (Hr : -1 <= r <= 1). { assert (0 <= 2 * Y / (Y - x)) by (apply Rmult_le_pos; [lra|apply Rlt_le, Rinv_0_lt_compat; lra]). assert (0 <= 2 * - x / (Y - x)) by (apply Rmult_le_pos; [lra|apply Rlt_le, Rinv_0_lt_compat; lra]). lra. }
    exists r, (3 * (PI / 4) - atan r). pose proof (atan_small r Hr) as A. split; [exact Hr|]. split.
    { intros PY. assert (0 < 2 * Y / (Y - x)) by (apply Rmult_lt_0_compat; [lra|apply Rinv_0_lt_compat; lra]). pose proof (atan_above r ltac:(lra)). lra. }
    split; [lra|]. split; [intros C; lra|]. split; [intros _; split; [unfold r|]; reflexivity|].
    destruct (cos_atan_pos r) as (C & S). assert (W : 0 < sqrt (1 + r²)) by (apply sqrt_lt_R0; unfold Rsqr; nra).
    exists ((Y - x) / 2 * sqrt 2 * sqrt (1 + r²)). split; [repeat apply Rmult_lt_0_compat; lra|].
    rewrite cos_minus, sin_minus, cos_3PI4, sin_3PI4, C, S. split.
    + transitivity ((Y - x) / 2 * - (1 - r)); [rewrite R2; field; lra|field; lra].
    + transitivity ((Y - x) / 2 * (1 + r)); [rewrite R1; field; lra|field; lra].
Qed.
Lemma fast_upper : forall x Y : R, 0 <= Y -> ~ (x = 0 /\ Y = 0) -> exists t : R, (0 < Y -> t < PI) /\ - PI < t <= PI /\ (exists k, 0 < k /\ x = k * cos t /\ Y = k * sin t) /\
  Rabs ((if Rle_dec 0 x then PI / 4 - PI / 4 * ((x - Y) / (x + Y)) else 3 * (PI / 4) - PI / 4 * ((x + Y) / (Y - x))) - t) <= / 8.
Proof.
  intros x Y HY N. destruct (upper_angle x Y HY) as (r & t & Hr & T1 & T2 & TA & TB & K).
  { destruct (Rlt_dec 0 x); [tauto|]. destruct (Rlt_dec x 0); [tauto|]. right. left. destruct HY as [L|E]; [exact L|]. exfalso. apply N. split; lra. }
  exists t. split; [exact T1|]. split; [exact T2|]. split; [exact K|]. destruct (Rle_dec 0 x) as [L|L].
  - destruct (TA L) as (<- & ->). replace (PI / 4 - PI / 4 * r - (PI / 4 - atan r)) with (- (PI / 4 * r - atan r)) by ring. rewrite Rabs_Ropp. apply near, Hr.
  - destruct (TB ltac:(lra)) as (<- & ->). replace (3 * (PI / 4) - PI / 4 * r - (3 * (PI / 4) - atan r)) with (- (PI / 4 * r - atan r)) by ring. rewrite Rabs_Ropp. apply near, Hr.
Qed.
Lemma fast_eq : forall y x : R, @tf2Atan2Fast RS y x =
  let a := if Rle_dec 0 x then PI / 4 - PI / 4 * ((x - Rabs y) / (x + Rabs y)) else 3 * (PI / 4) - PI / 4 * ((x + Rabs y) / (Rabs y - x)) in
  if Rlt_dec y 0 then - a else a.
Proof.
  intros y x. unfold tf2Atan2Fast. cbv zeta. destruct (sleb (slit 0 1 : RS) x) eqn:E.
  - apply sleb_RS in E. cbn [RS slit scar] in E. cbn [RS sltb slit sabs spi sadd ssub smul sdiv sopp scar]. unfold Rltb. replace (0 / 1) with 0 in * by lra. replace (4 / 1) with 4 by lra.
    destruct (Rle_dec 0 x); [|exfalso; lra]. destruct (Rlt_dec y 0); reflexivity.
  - apply sleb_RS_false in E. cbn [RS slit scar] in E. cbn [RS sltb slit sabs spi sadd ssub smul sdiv sopp scar]. unfold Rltb. replace (0 / 1) with 0 in * by lra. replace (4 / 1) with 4 by lra. replace (3 / 1) with 3 by lra.
    destruct (Rle_dec 0 x); [exfalso; lra|]. destruct (Rlt_dec y 0); reflexivity.
Qed.
Lemma atan2_fast : forall y x : R, ~ (x = 0 /\ y = 0) -> Rabs (@tf2Atan2Fast RS y x - Ratan2 y x) <= / 8.
Proof.
  intros y x N. rewrite fast_eq. cbv zeta.
  destruct (fast_upper x (Rabs y) (Rabs_pos y)) as (t & T1 & T2 & (k & K & Ex & Ey) & E).
  { intros (A & B). apply N. split; [exact A|]. destruct (Req_dec y 0) as [Z|Z]; [exact Z|]. exfalso. exact (Rabs_no_R0 y Z B). }
  set (a := if Rle_dec 0 x then PI / 4 - PI / 4 * ((x - Rabs y) / (x + Rabs y)) else 3 * (PI / 4) - PI / 4 * ((x + Rabs y) / (Rabs y - x))) in *. clearbody a.
  destruct (Rlt_dec y 0) as [L|L].
  - assert (A : Ratan2 y x = - t).
    { rewrite (Rabs_left y L) in Ey, T1. replace y with (k * sin (- t)) by (rewrite sin_neg; lra). replace x with (k * cos (- t)) by (rewrite cos_neg; symmetry; exact Ex).
      apply atan2_angle; [|exact K]. pose proof (T1 ltac:(lra)). lra. }
    rewrite A. replace (- a - - t) with (- (a - t)) by ring. rewrite Rabs_Ropp. exact E.
  - assert (A : Ratan2 y x = t).
    { rewrite (Rabs_right y ltac:(lra)) in Ey. rewrite Ex, Ey. apply atan2_angle; assumption. }
    rewrite A. exact E.
Qed.
