(** * Rounding errors of moving a point of a cloud *)
From Coq Require Import ZArith Bool Reals Floats.SpecFloat List Lia Lra Psatz.
From Flocq Require Import Raux.
From Verif Require Import Scalar LinearMath Instances RealQuat RealMatrix GeomMsgs ForeignGeom SpecRound SpecApply RoundNorm RoundApply Single SpecSingle SingleErr SingleOps.
Import SingleOps.
Open Scope R_scope.
Local Notation u := u32.
Local Notation e0 := eta32.
Local Notation "a +! b" := (SFadd prec32 emax32 a b) (at level 50, left associativity).
Local Notation "a -! b" := (SFsub prec32 emax32 a b) (at level 50, left associativity).
Local Notation "a *! b" := (SFmul prec32 emax32 a b) (at level 40, left associativity).

Ltac nums := rewrite ?u32_val, ?eta32_val, ?big32_val in *; lra.

Lemma two_ok : forall lm, finite32 (@two (F32 lm)) /\ val (@two (F32 lm)) = 2.
Proof.
  intros lm. assert (E : @two (F32 lm) = S754_finite false 8388608 (-22)) by (vm_compute; reflexivity). rewrite E.
  split; [vm_compute; reflexivity|]. cbn [val]. change (powerRZ 2 (-22)) with (/ 2 ^ 22). field.
Qed.
Lemma one_ok : forall lm, finite32 (@sone (F32 lm)) /\ val (@sone (F32 lm)) = 1.
Proof.
  intros lm. assert (E : @sone (F32 lm) = S754_finite false 8388608 (-23)) by (vm_compute; reflexivity). rewrite E.
  split; [vm_compute; reflexivity|]. cbn [val]. change (powerRZ 2 (-23)) with (/ 2 ^ 23). field.
Qed.

(** What the code computes, coordinate by coordinate. *)
Section G.
Context {S : Scalar}.
Open Scope S_scope.
Lemma eig_coords : forall (x y z w t1 t2 t3 a b c : S), eig_apply (eig_compose (V3 t1 t2 t3) (Q4 x y z w)) (V3 a b c) =
  V3 ((sone - (two * y * y + two * z * z)) * a + (two * y * x - two * z * w) * b + (two * z * x + two * y * w) * c + t1)
     ((two * y * x + two * z * w) * a + (sone - (two * x * x + two * z * z)) * b + (two * z * y - two * x * w) * c + t2)
     ((two * z * x - two * y * w) * a + (two * z * y + two * x * w) * b + (sone - (two * x * x + two * y * y)) * c + t3).
Proof. reflexivity. Qed.
End G.

(** (2 * x) * y from narrowed x and y *)
Section P.
Context {lm : libm}.
Notation tw := (@two (F32 lm)).
Lemma prod_ap : forall x y : f64, finite x -> finite y -> Rabs (val x) <= 11 / 10 -> Rabs (val y) <= 11 / 10 ->
  ap (tw *! narrow32 x *! narrow32 y) (2 * val x * val y) (81 / 10 * u * (Rabs (val x) * Rabs (val y)) + 12 * e0).
Proof.
  intros x y Fx Fy Hx Hy. destruct (two_ok lm) as (F2 & V2).
  pose proof (ap_narrow x Fx ltac:(nums)) as Nx. pose proof (ap_narrow y Fy ltac:(nums)) as Ny.
  pose proof (ap_exact tw F2) as T. rewrite V2 in T.
  pose proof (Rabs_pos (val x)) as A0. pose proof (Rabs_pos (val y)) as B0. set (a := Rabs (val x)) in *. set (b := Rabs (val y)) in *.
  assert (Kx : ap (tw *! narrow32 x) (2 * val x) (401 / 100 * u * a + 4 * e0)).
  { eapply ap_weaken; [apply (ap_mul2 _ _ _ _ _ _ 2 (2 * a) T Nx)|].
    - rewrite V2, Rabs_pos_eq; lra.
    - rewrite Rabs_mult, (Rabs_pos_eq 2) by lra. fold a. lra.
    - fold a. nums.
    - fold a. nums. }
  set (P := a * b). assert (P0 : 0 <= P <= 121 / 100) by (unfold P; split; [apply Rmult_le_pos; lra|nra]).
  set (e := 401 / 100 * u * a + 4 * e0) in *. assert (He : 0 <= e <= 1 / 1000) by (unfold e; nums).
  eapply ap_weaken; [apply (ap_mul2 _ _ _ _ _ _ (2 * a + e) (2 * P) Kx Ny)|].
  - eapply Rle_trans; [apply (ap_abs _ _ _ Kx)|]. rewrite Rabs_mult, (Rabs_pos_eq 2) by lra. fold a. lra.
  - rewrite !Rabs_mult, (Rabs_pos_eq 2) by lra. fold a b. unfold P. lra.
  - fold b. assert (b * e <= 11 / 10 * (1 / 1000)) by (apply Rmult_le_compat; lra). assert ((2 * a + e) * (u * b + e0) <= 3 * (1 / 100)) by (apply Rmult_le_compat; nums). nums.
  - fold b. assert (E1 : b * e = 401 / 100 * u * P + 4 * e0 * b) by (unfold e, P; ring).
    assert (E2 : (2 * a + e) * (u * b + e0) = 2 * u * P + 2 * a * e0 + u * (b * e) + e0 * e) by (unfold P; ring).
    rewrite E2, E1. clear E1 E2 Kx Nx Ny T. clearbody e P a b. rewrite u32_val, eta32_val in *. lra.
Qed.

(** p + q and p - q of two of them *)
Lemma pair_ap : forall x y z w : f64, finite x -> finite y -> finite z -> finite w ->
  Rabs (val x) <= 11 / 10 -> Rabs (val y) <= 11 / 10 -> Rabs (val z) <= 11 / 10 -> Rabs (val w) <= 11 / 10 ->
  let Q := Rabs (val x) * Rabs (val y) + Rabs (val z) * Rabs (val w) in
  ap (tw *! narrow32 x *! narrow32 y +! tw *! narrow32 z *! narrow32 w) (2 * val x * val y + 2 * val z * val w) (1012 / 100 * u * Q + 26 * e0) /\
  ap (tw *! narrow32 x *! narrow32 y -! tw *! narrow32 z *! narrow32 w) (2 * val x * val y - 2 * val z * val w) (1012 / 100 * u * Q + 26 * e0).
Proof.
  intros x y z w Fx Fy Fz Fw Hx Hy Hz Hw Q. pose proof (prod_ap x y Fx Fy Hx Hy) as K1. pose proof (prod_ap z w Fz Fw Hz Hw) as K2.
  pose proof (Rabs_pos (val x)). pose proof (Rabs_pos (val y)). pose proof (Rabs_pos (val z)). pose proof (Rabs_pos (val w)).
  assert (B1 : Rabs (2 * val x * val y) = 2 * (Rabs (val x) * Rabs (val y))) by (rewrite !Rabs_mult, (Rabs_pos_eq 2) by lra; ring).
  assert (B2 : Rabs (2 * val z * val w) = 2 * (Rabs (val z) * Rabs (val w))) by (rewrite !Rabs_mult, (Rabs_pos_eq 2) by lra; ring).
  assert (P1 : 0 <= Rabs (val x) * Rabs (val y) <= 121 / 100) by (split; [apply Rmult_le_pos; lra|nra]).
  assert (P2 : 0 <= Rabs (val z) * Rabs (val w) <= 121 / 100) by (split; [apply Rmult_le_pos; lra|nra]).
  unfold Q. set (p := Rabs (val x) * Rabs (val y)) in *. set (q := Rabs (val z) * Rabs (val w)) in *.
  split.
  - eapply ap_weaken; [apply (ap_add _ _ _ _ _ _ (2 * (p + q)) K1 K2)|].
    + eapply Rle_trans; [apply Rabs_triang|]. lra.
    + nums.
    + nums.
  - eapply ap_weaken; [apply (ap_sub _ _ _ _ _ _ (2 * (p + q)) K1 K2)|].
    + unfold Rminus. eapply Rle_trans; [apply Rabs_triang|]. rewrite Rabs_Ropp. lra.
    + nums.
    + nums.
Qed.
Lemma diag_ap : forall y z : f64, finite y -> finite z -> Rabs (val y) <= 11 / 10 -> Rabs (val z) <= 11 / 10 -> val y * val y + val z * val z <= 101 / 100 ->
  ap (@sone (F32 lm) -! (tw *! narrow32 y *! narrow32 y +! tw *! narrow32 z *! narrow32 z)) (1 - (2 * val y * val y + 2 * val z * val z)) (113 / 10 * u).
Proof.
  intros y z Fy Fz Hy Hz H. destruct (one_ok lm) as (F1 & V1). pose proof (ap_exact _ F1) as O. rewrite V1 in O.
  destruct (pair_ap y y z z Fy Fy Fz Fz Hy Hy Hz Hz) as (K & _).
  assert (E : forall t, Rabs t * Rabs t = t * t) by (intros t; unfold Rabs; destruct (Rcase_abs t); ring). rewrite !E in K.
  pose proof (Rle_0_sqr (val y)) as Y0. pose proof (Rle_0_sqr (val z)) as Z0. unfold Rsqr in *.
  eapply ap_weaken; [apply (ap_sub _ _ _ _ _ _ (102 / 100) O K)|].
  - apply Rabs_le. lra.
  - nums.
  - nums.
Qed.
End P.

(** ** The nine numbers of the matrix *)
Definition rows3 (P : f32 -> R -> Prop) (m : list (list f32)) (r : list (list R)) : Prop := Forall2 (Forall2 P) m r.
Section M.
Context {lm : libm}.
Variables (x y z w : f64).
Hypothesis (Fx : finite x) (Fy : finite y) (Fz : finite z) (Fw : finite w).
Let n := val x * val x + val y * val y + val z * val z + val w * val w.
Variable d : R.
Hypothesis (Hd : Rabs (n - 1) <= d) (Hd2 : d <= 1 / 100).
Let X := val x. Let Y := val y. Let Z := val z. Let W := val w.

Lemma small4 : Rabs X <= 11 / 10 /\ Rabs Y <= 11 / 10 /\ Rabs Z <= 11 / 10 /\ Rabs W <= 11 / 10 /\ 99 / 100 <= n <= 101 / 100.
Proof.
  apply Rabs_le_inv in Hd. pose proof (Rle_0_sqr X) as A. pose proof (Rle_0_sqr Y) as B. pose proof (Rle_0_sqr Z) as C. pose proof (Rle_0_sqr W) as D. unfold Rsqr in *.
  unfold n, X, Y, Z, W in *. repeat split; try lra; apply Rabs_le; nra.
Qed.
(** against the normalised matrix *)
Lemma off_ap : forall a b c e : f64, finite a -> finite b -> finite c -> finite e ->
  val a * val a + val b * val b + val c * val c + val e * val e = n ->
  (let M := val a * (val b * (2 / n)) + val c * (val e * (2 / n)) in
   ap (@two (F32 lm) *! narrow32 a *! narrow32 b +! @two (F32 lm) *! narrow32 c *! narrow32 e) M (113 / 10 * u + 2 * d) /\ Rabs M <= 103 / 100) /\
  (let M := val a * (val b * (2 / n)) - val c * (val e * (2 / n)) in
   ap (@two (F32 lm) *! narrow32 a *! narrow32 b -! @two (F32 lm) *! narrow32 c *! narrow32 e) M (113 / 10 * u + 2 * d) /\ Rabs M <= 103 / 100).
Proof.
  intros a b c e Fa Fb Fc Fe En. pose proof small4 as (_ & _ & _ & _ & Nb).
  pose proof (Rle_0_sqr (val a)) as A0. pose proof (Rle_0_sqr (val b)) as B0. pose proof (Rle_0_sqr (val c)) as C0. pose proof (Rle_0_sqr (val e)) as D0. unfold Rsqr in *.
  assert (S4 : forall t, t * t <= n -> Rabs t <= 11 / 10) by (intros t Ht; apply Rabs_le; nra).
  pose proof (S4 (val a) ltac:(lra)) as Ha. pose proof (S4 (val b) ltac:(lra)) as Hb. pose proof (S4 (val c) ltac:(lra)) as Hc. pose proof (S4 (val e) ltac:(lra)) as He.
  destruct (pair_ap (lm := lm) a b c e Fa Fb Fc Fe Ha Hb Hc He) as (K1 & K2).
  assert (SQ : forall t, Rabs t * Rabs t = t * t) by (intros t; unfold Rabs; destruct (Rcase_abs t); ring).
  assert (PQ : Rabs (val a) * Rabs (val b) + Rabs (val c) * Rabs (val e) <= n / 2).
  { pose proof (Rle_0_sqr (Rabs (val a) - Rabs (val b))) as Q1. pose proof (Rle_0_sqr (Rabs (val c) - Rabs (val e))) as Q2. unfold Rsqr in *.
    pose proof (SQ (val a)). pose proof (SQ (val b)). pose proof (SQ (val c)). pose proof (SQ (val e)). nra. }
  assert (PQ0 : 0 <= Rabs (val a) * Rabs (val b) + Rabs (val c) * Rabs (val e)).
  { apply Rplus_le_le_0_compat; apply Rmult_le_pos; apply Rabs_pos. }
  assert (B1 : Rabs (val a * val b + val c * val e) <= n / 2) by (eapply Rle_trans; [apply Rabs_triang|]; rewrite !Rabs_mult; exact PQ).
  assert (B2 : Rabs (val a * val b - val c * val e) <= n / 2) by (unfold Rminus; eapply Rle_trans; [apply Rabs_triang|]; rewrite Rabs_Ropp, !Rabs_mult; exact PQ).
  set (Q := Rabs (val a) * Rabs (val b) + Rabs (val c) * Rabs (val e)) in *. cbv zeta in K1, K2. fold Q in K1, K2. clearbody Q.
  assert (G : forall t, Rabs t <= n / 2 -> Rabs (2 * t - t * (2 / n)) <= d /\ Rabs (t * (2 / n)) <= 103 / 100).
  { intros t Ht. assert (I0 : 0 < 2 / n) by (apply Rdiv_lt_0_compat; lra). assert (T1 : Rabs (t * (2 / n)) <= 1).
    { rewrite Rabs_mult, (Rabs_pos_eq (2 / n)) by lra. apply Rle_trans with (n / 2 * (2 / n)); [apply Rmult_le_compat_r; lra|]. right. field. lra. }
    split; [|lra]. replace (2 * t - t * (2 / n)) with ((t * (2 / n)) * (n - 1)) by (field; lra). rewrite Rabs_mult.
    pose proof (Rabs_pos (n - 1)). apply Rle_trans with (1 * Rabs (n - 1)); [apply Rmult_le_compat_r; lra|lra]. }
  pose proof (Rabs_pos (n - 1)) as D1.
  split; cbv zeta.
  - destruct (G _ B1) as (G1 & G2). replace (val a * (val b * (2 / n)) + val c * (val e * (2 / n))) with ((val a * val b + val c * val e) * (2 / n)) by ring. split; [|exact G2].
    eapply ap_weaken; [apply (ap_near _ _ _ _ d K1)|].
    + replace (2 * val a * val b + 2 * val c * val e) with (2 * (val a * val b + val c * val e)) by ring. exact G1.
    + nums.
  - destruct (G _ B2) as (G1 & G2). replace (val a * (val b * (2 / n)) - val c * (val e * (2 / n))) with ((val a * val b - val c * val e) * (2 / n)) by ring. split; [|exact G2].
    eapply ap_weaken; [apply (ap_near _ _ _ _ d K2)|].
    + replace (2 * val a * val b - 2 * val c * val e) with (2 * (val a * val b - val c * val e)) by ring. exact G1.
    + nums.
Qed.
Lemma dg_ap : forall a b : f64, finite a -> finite b -> val a * val a + val b * val b <= n ->
  let M := 1 - (val a * (val a * (2 / n)) + val b * (val b * (2 / n))) in
  ap (@sone (F32 lm) -! (@two (F32 lm) *! narrow32 a *! narrow32 a +! @two (F32 lm) *! narrow32 b *! narrow32 b)) M (113 / 10 * u + 2 * d) /\ Rabs M <= 103 / 100.
Proof.
  intros a b Fa Fb Hn M. pose proof small4 as (_ & _ & _ & _ & Nb).
  pose proof (Rle_0_sqr (val a)) as A0. pose proof (Rle_0_sqr (val b)) as B0. unfold Rsqr in *.
  assert (S4 : forall t, t * t <= n -> Rabs t <= 11 / 10) by (intros t Ht; apply Rabs_le; nra).
  pose proof (S4 (val a) ltac:(lra)) as Ha. pose proof (S4 (val b) ltac:(lra)) as Hb.
  pose proof (diag_ap (lm := lm) a b Fa Fb Ha Hb ltac:(lra)) as K. set (t := val a * val a + val b * val b) in *.
  assert (EM : M = 1 - t * (2 / n)) by (unfold M, t; ring). rewrite EM.
  assert (I0 : 0 < 2 / n) by (apply Rdiv_lt_0_compat; lra). assert (T1 : 0 <= t * (2 / n) <= 2).
  { split; [apply Rmult_le_pos; unfold t; lra|]. apply Rle_trans with (n * (2 / n)); [apply Rmult_le_compat_r; lra|]. right. field. lra. }
  split; [|apply Rabs_le; lra].
  apply (ap_near _ _ _ _ (2 * d) K). replace (1 - (2 * val a * val a + 2 * val b * val b) - (1 - t * (2 / n))) with (- ((t * (2 / n)) * (n - 1))) by (unfold t; field; lra).
  rewrite Rabs_Ropp, Rabs_mult, (Rabs_pos_eq (t * (2 / n))) by lra. pose proof (Rabs_pos (n - 1)). apply Rle_trans with (2 * Rabs (n - 1)); [apply Rmult_le_compat_r; lra|lra].
Qed.

(** ** One coordinate: a row of the matrix times the point, plus the translation *)
Lemma coord_ap : forall (m1 m2 m3 : f32) M1 M2 M3 (a b c : f32) (t : f64),
  ap m1 M1 (113 / 10 * u + 2 * d) /\ Rabs M1 <= 103 / 100 -> ap m2 M2 (113 / 10 * u + 2 * d) /\ Rabs M2 <= 103 / 100 -> ap m3 M3 (113 / 10 * u + 2 * d) /\ Rabs M3 <= 103 / 100 ->
  finite32 a -> finite32 b -> finite32 c -> finite t ->
  let S := Rabs (val a) + Rabs (val b) + Rabs (val c) in S <= IZR (2 ^ 100) -> Rabs (val t) <= IZR (2 ^ 100) ->
  ap (m1 *! a +! m2 *! b +! m3 *! c +! narrow32 t) (M1 * val a + M2 * val b + M3 * val c + val t)
     ((16 * u + 21 / 10 * d) * S + 21 / 10 * u * Rabs (val t) + 8 * e0).
Proof.
  intros m1 m2 m3 M1 M2 M3 a b c t (K1 & B1) (K2 & B2) (K3 & B3) Fa Fb Fc Ft S HS Ht.
  change (IZR (2 ^ 100)) with 1267650600228229401496703205376 in *.
  pose proof (Rabs_pos (val a)) as A0. pose proof (Rabs_pos (val b)) as B0. pose proof (Rabs_pos (val c)) as C0. pose proof (Rabs_pos (val t)) as T0. pose proof (Rabs_pos (n - 1)) as D0.
  set (D := 113 / 10 * u + 2 * d) in *. assert (HD : 0 <= D <= 21 / 1000) by (unfold D; nums).
  assert (Q : forall m M v, ap m M D -> Rabs M <= 103 / 100 -> finite32 v -> Rabs (val v) <= 1267650600228229401496703205376 ->
     ap (m *! v) (M * val v) (D * Rabs (val v) + 106 / 100 * u * Rabs (val v) + e0) /\ Rabs (M * val v) <= 103 / 100 * Rabs (val v)).
  { intros m M v Km Bm Fv Hv. pose proof (Rabs_pos (val v)) as V0. assert (BV : Rabs (M * val v) <= 103 / 100 * Rabs (val v)) by (rewrite Rabs_mult; apply Rmult_le_compat_r; lra). split; [|exact BV].
    assert (DV : 0 <= D * Rabs (val v) <= 21 / 1000 * Rabs (val v)) by (split; [apply Rmult_le_pos; lra|apply Rmult_le_compat_r; lra]).
    eapply ap_weaken; [apply (ap_mul2 _ _ _ _ _ _ (106 / 100) (103 / 100 * Rabs (val v)) Km (ap_exact v Fv))|].
    - pose proof (ap_abs _ _ _ Km). lra.
    - exact BV.
    - nums.
    - replace (Rabs (val v) * D) with (D * Rabs (val v)) by ring. set (DD := D * Rabs (val v)) in *. clearbody DD. nums. }
  destruct (Q m1 M1 a K1 B1 Fa ltac:(unfold S in HS; lra)) as (P1 & L1). destruct (Q m2 M2 b K2 B2 Fb ltac:(unfold S in HS; lra)) as (P2 & L2). destruct (Q m3 M3 c K3 B3 Fc ltac:(unfold S in HS; lra)) as (P3 & L3). clear Q.
  assert (ES : D * S = D * Rabs (val a) + D * Rabs (val b) + D * Rabs (val c)) by (unfold S; ring).
  assert (Da : 0 <= D * Rabs (val a) <= 21 / 1000 * Rabs (val a)) by (split; [apply Rmult_le_pos; lra|apply Rmult_le_compat_r; lra]).
  assert (Db : 0 <= D * Rabs (val b) <= 21 / 1000 * Rabs (val b)) by (split; [apply Rmult_le_pos; lra|apply Rmult_le_compat_r; lra]).
  assert (Dc : 0 <= D * Rabs (val c) <= 21 / 1000 * Rabs (val c)) by (split; [apply Rmult_le_pos; lra|apply Rmult_le_compat_r; lra]).
  assert (EF : (16 * u + 21 / 10 * d) * S = D * S + 47 / 10 * (u * S) + 1 / 10 * (d * S)) by (unfold D; field).
  assert (DS : 0 <= d * S) by (unfold S; apply Rmult_le_pos; lra). rewrite EF, ES. clear EF ES.
  set (da := D * Rabs (val a)) in *. set (db := D * Rabs (val b)) in *. set (dc := D * Rabs (val c)) in *. clearbody da db dc. set (dS := d * S) in *. clearbody dS.
  unfold S in *. set (va := Rabs (val a)) in *. set (vb := Rabs (val b)) in *. set (vc := Rabs (val c)) in *. set (vt := Rabs (val t)) in *.
  pose proof (ap_narrow t Ft ltac:(fold vt; nums)) as Kt. fold vt in Kt.
  assert (A12 : Rabs (M1 * val a + M2 * val b) <= 103 / 100 * (va + vb)) by (eapply Rle_trans; [apply Rabs_triang|]; lra).
  assert (A123 : Rabs (M1 * val a + M2 * val b + M3 * val c) <= 103 / 100 * (va + vb + vc)) by (eapply Rle_trans; [apply Rabs_triang|]; lra).
  assert (A4 : Rabs (M1 * val a + M2 * val b + M3 * val c + val t) <= 103 / 100 * (va + vb + vc) + vt) by (eapply Rle_trans; [apply Rabs_triang|]; fold vt; lra).
  clearbody va vb vc vt. clear K1 K2 K3 B1 B2 B3 L1 L2 L3 Fa Fb Fc Ft.
  pose proof (ap_add _ _ _ _ _ _ _ P1 P2 A12 ltac:(nums)) as S12.
  pose proof (ap_add _ _ _ _ _ _ _ S12 P3 A123 ltac:(nums)) as S123.
  pose proof (ap_add _ _ _ _ _ _ _ S123 Kt A4 ltac:(nums)) as S4.
  eapply ap_weaken; [exact S4|]. clear S12 S123 S4 P1 P2 P3 Kt A12 A123 A4. nums.
Qed.
End M.
