(** * The weight sin(a x)/sin x of spherical interpolation, as a function of x *)
From Coq Require Import ZArith Reals Lra Lia Psatz.
From Verif Require Import SpecInterp.
Open Scope R_scope.

Lemma PI2_up : PI / 2 <= 167 / 100.
Proof.
  pose proof (PI_ineq 2) as (_ & H). unfold tg_alt, PI_tg in H. cbn in H. lra.
Qed.
Lemma sin_le_x : forall x, 0 <= x -> sin x <= x.
Proof. intros x [H| <-]; [left; apply sin_lt_x, H|rewrite sin_0; lra]. Qed.
Lemma sin_low : forall x, 0 <= x <= 17 / 10 -> x / 2 <= sin x.
Proof.
  intros x (H & H2). pose proof PI2_3_2 as P. destruct (sin_bound x 0 H ltac:(lra)) as (B & _).
  unfold sin_approx, sin_term in B. cbn in B. nra.
Qed.
Lemma sin_abs_le : forall x y, Rabs (sin x - sin y) <= Rabs (x - y).
Proof.
  assert (A : forall x y, x < y -> Rabs (sin y - sin x) <= Rabs (y - x)).
  { intros x y H. destruct (MVT_cor2 sin cos x y H (fun c _ => derivable_pt_lim_sin c)) as (c & E & _).
    rewrite E, Rabs_mult. pose proof (COS_bound c). pose proof (Rabs_pos (y - x)).
    assert (Rabs (cos c) <= 1) by (apply Rabs_le; lra). nra. }
  intros x y. destruct (Rtotal_order x y) as [H|[->|H]].
  - rewrite Rabs_minus_sym, (Rabs_minus_sym x). apply A, H.
  - rewrite !Rminus_eq_0, Rabs_R0. lra.
  - apply A, H.
Qed.

Section W.
Variable a : R.
Hypothesis Ha : 0 <= a <= 1.
Let g x := a * cos (a * x) * sin x - sin (a * x) * cos x.

Lemma lim_sin_a : forall x, derivable_pt_lim (fun y => sin (a * y)) x (a * cos (a * x)).
Proof.
  intros x. replace (a * cos (a * x)) with (cos (a * x) * a) by ring.
  apply (derivable_pt_lim_comp (fun y => a * y) sin); [|apply derivable_pt_lim_sin].
  pose proof (derivable_pt_lim_scal id a x 1 (derivable_pt_lim_id x)) as H. rewrite Rmult_1_r in H. exact H.
Qed.
Lemma lim_cos_a : forall x, derivable_pt_lim (fun y => cos (a * y)) x (- a * sin (a * x)).
Proof.
  intros x. replace (- a * sin (a * x)) with (- sin (a * x) * a) by ring.
  apply (derivable_pt_lim_comp (fun y => a * y) cos); [|apply derivable_pt_lim_cos].
  pose proof (derivable_pt_lim_scal id a x 1 (derivable_pt_lim_id x)) as H. rewrite Rmult_1_r in H. exact H.
Qed.
Lemma lim_g : forall x, derivable_pt_lim g x ((1 - a * a) * (sin (a * x) * sin x)).
Proof.
  intros x. unfold g.
  replace ((1 - a * a) * (sin (a * x) * sin x)) with
    ((a * (- a * sin (a * x))) * sin x + (a * cos (a * x)) * cos x - ((a * cos (a * x)) * cos x + sin (a * x) * - sin x)) by ring.
  apply (derivable_pt_lim_minus (fun x => a * cos (a * x) * sin x) (fun x => sin (a * x) * cos x)).
  - apply (derivable_pt_lim_mult (fun x => a * cos (a * x)) sin); [|apply derivable_pt_lim_sin].
    apply (derivable_pt_lim_scal (fun y => cos (a * y))). apply lim_cos_a.
  - apply (derivable_pt_lim_mult (fun x => sin (a * x)) cos); [apply lim_sin_a|apply derivable_pt_lim_cos].
Qed.
Lemma ax_range : forall x, 0 <= x -> 0 <= a * x <= x.
Proof using Ha. intros x H. split; [apply Rmult_le_pos; lra|]. rewrite <- (Rmult_1_l x) at 2. apply Rmult_le_compat_r; lra. Qed.
Lemma sin_pos17 : forall x, 0 <= x <= 17 / 10 -> 0 <= sin x.
Proof. intros x H. pose proof (sin_low x H). lra. Qed.
Lemma g_range : forall x, 0 <= x <= 17 / 10 -> 0 <= g x <= x * x * x / 3.
Proof using Ha.
  assert (D : forall c, 0 <= c <= 17 / 10 -> 0 <= (1 - a * a) * (sin (a * c) * sin c) <= c * c).
  { intros c Hc. destruct (ax_range c ltac:(lra)) as (A1 & A2). pose proof (sin_pos17 c Hc). pose proof (sin_pos17 (a * c) ltac:(lra)).
    pose proof (sin_le_x c ltac:(lra)). pose proof (sin_le_x (a * c) ltac:(lra)).
    assert (0 <= 1 - a * a <= 1) by nra. assert (0 <= sin (a * c) * sin c) by (apply Rmult_le_pos; lra).
    assert (sin (a * c) * sin c <= c * c) by (apply Rmult_le_compat; lra). nra. }
  assert (G0 : g 0 = 0) by (unfold g; rewrite Rmult_0_r, sin_0; ring).
  intros x (H & H2). destruct H as [H| <-]; [|rewrite G0; lra]. split.
  - destruct (MVT_cor2 g _ 0 x H (fun c _ => lim_g c)) as (c & E & Hc). rewrite G0 in E.
    destruct (D c ltac:(lra)) as (D1 & _). assert (0 <= (1 - a * a) * (sin (a * c) * sin c) * (x - 0)) by (apply Rmult_le_pos; lra). lra.
  - set (k := fun y => y * y * y / 3 - g y).
    assert (L : forall c, derivable_pt_lim k c (c * c - (1 - a * a) * (sin (a * c) * sin c))).
    { intros c. unfold k. apply (derivable_pt_lim_minus (fun y => y * y * y / 3) g); [|apply lim_g].
      replace (c * c) with (((1 * c + c * 1) * c + (c * c) * 1) * / 3 + (c * c * c) * 0) by field.
      apply (derivable_pt_lim_mult (fun y => y * y * y) (fun _ => / 3)); [|apply derivable_pt_lim_const].
      apply (derivable_pt_lim_mult (fun y => y * y) id); [|apply derivable_pt_lim_id].
      apply (derivable_pt_lim_mult id id); apply derivable_pt_lim_id. }
    destruct (MVT_cor2 k _ 0 x H (fun c _ => L c)) as (c & E & Hc). unfold k in E. rewrite G0 in E.
    destruct (D c ltac:(lra)) as (_ & D2).
    assert (0 <= (c * c - (1 - a * a) * (sin (a * c) * sin c)) * (x - 0)) by (apply Rmult_le_pos; lra). lra.
Qed.

Lemma weight_lip_pos : forall x y, 0 < x -> x < y -> y <= 17 / 10 ->
  0 <= sin (a * y) / sin y - sin (a * x) / sin x <= 3 * (cos x - cos y).
Proof using Ha.
  intros x y H0 H1 H2.
  assert (S : forall c, x <= c <= y -> 0 < sin c) by (intros c Hc; pose proof (sin_low c ltac:(lra)); lra).
  assert (L : forall c, x <= c <= y -> derivable_pt_lim (fun z => sin (a * z) / sin z) c (g c / (sin c)²)).
  { intros c Hc. replace (g c / (sin c)²) with ((a * cos (a * c) * sin c - cos c * sin (a * c)) / (sin c)²) by (unfold g; f_equal; ring).
    apply (derivable_pt_lim_div (fun z => sin (a * z)) sin); [apply lim_sin_a|apply derivable_pt_lim_sin|]. pose proof (S c Hc). lra. }
  assert (S2 : forall c, x <= c <= y -> 0 < (sin c)²) by (intros c Hc; apply Rsqr_pos_lt; pose proof (S c Hc); lra).
  split.
  - destruct (MVT_cor2 _ _ x y H1 L) as (c & E & Hc). rewrite E. apply Rmult_le_pos; [|lra].
    destruct (g_range c ltac:(lra)) as (G & _). apply Rmult_le_pos; [exact G|]. left. apply Rinv_0_lt_compat, S2. lra.
  - set (h := fun z => sin (a * z) / sin z + 3 * cos z).
    assert (Lh : forall c, x <= c <= y -> derivable_pt_lim h c (g c / (sin c)² + 3 * - sin c)).
    { intros c Hc. apply (derivable_pt_lim_plus (fun z => sin (a * z) / sin z) (fun z => 3 * cos z)); [apply L, Hc|].
      apply (derivable_pt_lim_scal cos). apply derivable_pt_lim_cos. }
    destruct (MVT_cor2 h _ x y H1 Lh) as (c & E & Hc). unfold h in E.
    assert (N : g c / (sin c)² + 3 * - sin c <= 0).
    { destruct (g_range c ltac:(lra)) as (_ & G). pose proof (sin_low c ltac:(lra)) as SL. pose proof (S2 c ltac:(lra)) as S3.
      assert (Q : g c <= 3 * sin c * (sin c)²).
      { eapply Rle_trans; [exact G|]. unfold Rsqr. assert (A : c / 2 * (c / 2) <= sin c * sin c) by (apply Rmult_le_compat; lra).
        assert (B : c / 2 * (c / 2) * (c / 2) <= sin c * sin c * sin c) by (apply Rmult_le_compat; try lra; nra).
        assert (0 <= c * c * c) by (repeat apply Rmult_le_pos; lra). lra. }
      apply (Rmult_le_compat_r (/ (sin c)²)) in Q; [|left; apply Rinv_0_lt_compat, S3].
      rewrite (Rmult_assoc _ (sin c)²), Rinv_r, Rmult_1_r in Q by lra. unfold Rdiv. lra. }
    assert ((g c / (sin c)² + 3 * - sin c) * (y - x) <= 0) by nra. lra.
Qed.
(** from angle zero, where the weight is [a] *)
Lemma weight_lip_0 : forall y, 0 < y <= 17 / 10 -> 0 <= sin (a * y) / sin y - a <= 3 * (1 - cos y).
Proof using Ha.
  intros y (H0 & H1). destruct (ax_range y ltac:(lra)) as (A1 & A2). pose proof (sin_low y ltac:(lra)) as SL. assert (S : 0 < sin y) by lra. split.
  - set (m := fun z => sin (a * z) - a * sin z).
    assert (L : forall c, derivable_pt_lim m c (a * cos (a * c) - a * cos c)).
    { intros c. apply (derivable_pt_lim_minus (fun z => sin (a * z)) (fun z => a * sin z)); [apply lim_sin_a|].
      apply (derivable_pt_lim_scal sin). apply derivable_pt_lim_sin. }
    destruct (MVT_cor2 m _ 0 y H0 (fun c _ => L c)) as (c & E & Hc). unfold m in E. rewrite Rmult_0_r, sin_0 in E.
    destruct (ax_range c ltac:(lra)) as (C1 & C2). pose proof PI2_3_2.
    assert (cos c <= cos (a * c)) by (apply cos_decr_1; lra).
    assert (0 <= a * cos (a * c) - a * cos c) by nra.
    assert (0 <= (a * cos (a * c) - a * cos c) * (y - 0)) by (apply Rmult_le_pos; lra).
    assert (Q : a * sin y <= sin (a * y)) by lra. apply (Rmult_le_compat_r (/ sin y)) in Q; [|left; apply Rinv_0_lt_compat, S].
    rewrite Rmult_assoc, Rinv_r, Rmult_1_r in Q by lra. unfold Rdiv. lra.
  - assert (T : y - y * y * y / 6 <= sin y).
    { pose proof PI2_3_2 as P. destruct (sin_bound y 0 ltac:(lra) ltac:(lra)) as (B & _). unfold sin_approx, sin_term in B. cbn in B. lra. }
    assert (C : y * y / 8 <= 1 - cos y).
    { replace y with (2 * (y / 2)) at 3 by field. rewrite cos_2a_sin. pose proof (sin_low (y / 2) ltac:(lra)).
      assert (y / 2 / 2 * (y / 2 / 2) <= sin (y / 2) * sin (y / 2)) by (apply Rmult_le_compat; lra). lra. }
    assert (Q : sin (a * y) <= (a + 3 * (1 - cos y)) * sin y).
    { eapply Rle_trans; [apply sin_le_x; exact A1|].
      assert (a * (y - sin y) <= y * y * y / 6) by nra.
      assert (3 * (y * y / 8) * (y / 2) <= 3 * (1 - cos y) * sin y) by (apply Rmult_le_compat; nra).
      nra. }
    apply (Rmult_le_compat_r (/ sin y)) in Q; [|left; apply Rinv_0_lt_compat, S].
    rewrite Rmult_assoc, Rinv_r, Rmult_1_r in Q by lra. unfold Rdiv. lra.
Qed.
End W.

Lemma weight_lip : forall a x y, 0 <= a <= 1 -> 0 <= x <= 17 / 10 -> 0 <= y <= 17 / 10 ->
  Rabs (weight a x - weight a y) <= 3 * Rabs (cos x - cos y).
Proof.
  assert (A : forall a x y, 0 <= a <= 1 -> 0 <= x -> x < y -> y <= 17 / 10 -> 0 <= weight a y - weight a x <= 3 * (cos x - cos y)).
  { intros a x y Ha Hx Hxy Hy. unfold weight. destruct (Req_EM_T y 0); [lra|]. destruct (Req_EM_T x 0) as [->|N].
    - rewrite cos_0. apply weight_lip_0; lra.
    - apply weight_lip_pos; lra. }
  assert (B : forall a x y, 0 <= a <= 1 -> 0 <= x -> x < y -> y <= 17 / 10 -> Rabs (weight a y - weight a x) <= 3 * Rabs (cos x - cos y)).
  { intros a x y Ha Hx Hxy Hy. destruct (A a x y Ha Hx Hxy Hy) as (P & Q). rewrite Rabs_pos_eq by exact P.
    pose proof (Rle_abs (cos x - cos y)). lra. }
  intros a x y Ha (Hx1 & Hx2) (Hy1 & Hy2). destruct (Rtotal_order x y) as [H|[->|H]].
  - rewrite Rabs_minus_sym. apply B; assumption.
  - rewrite !Rminus_eq_0, Rabs_R0. lra.
  - rewrite (Rabs_minus_sym (cos x)). apply B; assumption.
Qed.
Lemma weight_range : forall a x, 0 <= a <= 1 -> 0 <= x <= 17 / 10 -> 0 <= weight a x <= 2.
Proof.
  intros a x Ha Hx. unfold weight. destruct (Req_EM_T x 0) as [->|N]; [lra|].
  pose proof (sin_low x Hx) as S. destruct (ax_range a Ha x ltac:(lra)) as (A1 & A2).
  pose proof (sin_pos17 (a * x) ltac:(lra)). pose proof (sin_le_x (a * x) A1). split.
  - apply Rmult_le_pos; [assumption|]. left. apply Rinv_0_lt_compat. lra.
  - apply (Rmult_le_reg_r (sin x)); [lra|]. unfold Rdiv. rewrite Rmult_assoc, Rinv_l by lra. lra.
Qed.
(** the two weights of an interpolation between unit vectors give a unit vector *)
Lemma weight_circle : forall t x, 0 <= x <= 17 / 10 ->
  weight (1 - t) x * weight (1 - t) x + weight t x * weight t x + 2 * weight (1 - t) x * weight t x * cos x = 1.
Proof.
  intros t x Hx. unfold weight. destruct (Req_EM_T x 0) as [->|N]; [rewrite cos_0; ring|].
  pose proof (sin_low x Hx) as S.
  set (A := (1 - t) * x). set (B := t * x). assert (E : x = A + B) by (unfold A, B; ring).
  assert (SN : sin x <> 0) by lra. clear S Hx N. rewrite E in *. clearbody A B. clear E.
  assert (K : sin A * sin A + sin B * sin B + 2 * sin A * sin B * cos (A + B) = sin (A + B) * sin (A + B)).
  { rewrite cos_plus, sin_plus. pose proof (sin2_cos2 A) as HA. pose proof (sin2_cos2 B) as HB. unfold Rsqr in *.
    replace (sin A * sin A + sin B * sin B) with (sin A * sin A * (sin B * sin B + cos B * cos B) + sin B * sin B * (sin A * sin A + cos A * cos A)) by (rewrite HA, HB; ring).
    ring. }
  apply (Rmult_eq_reg_r (sin (A + B) * sin (A + B))); [|nra].
  rewrite Rmult_1_l. eapply eq_trans; [|exact K]. field. exact SN.
Qed.
