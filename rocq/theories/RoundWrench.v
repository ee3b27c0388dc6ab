(** * Rounding errors of moving a wrench *)
From Coq Require Import ZArith Bool Reals Floats.SpecFloat List Lia Lra Psatz.
From Flocq Require Import Zaux Raux Defs BinarySingleNaN.
From Verif Require Import Scalar LinearMath Instances RealQuat RealMatrix SpecRound FloatErr FloatMore RoundNorm RoundOps RoundChain SpecReal SpecApply RoundApply RoundPoint.
Open Scope R_scope.
Local Notation u := uro.
Local Notation "a +! b" := (SFadd prec64 emax64 a b) (at level 50, left associativity).
Local Notation "a -! b" := (SFsub prec64 emax64 a b) (at level 50, left associativity).
Local Notation "a *! b" := (SFmul prec64 emax64 a b) (at level 40, left associativity).

Section W.
Context {lm : libm}.
Notation fq := (quat (F64 lm)).
Notation fv := (vec3 (F64 lm)).

(** one component: a d - b c *)
Lemma det2_ap : forall a b c d : f64, finite a -> finite b -> finite c -> finite d ->
  let P := Rabs (val a * val d) + Rabs (val b * val c) in P <= big / 2 ->
  ap (a *! d -! b *! c) (val a * val d - val b * val c) (201 / 100 * u * P + 4 * eta).
Proof.
  intros a b c d Fa Fb Fc Fd P HP. pose proof big_big as BB. pose proof uro_pos as U. pose proof eta_pos as E0. pose proof eta_1 as E1.
  pose proof (Rabs_pos (val a * val d)) as A0. pose proof (Rabs_pos (val b * val c)) as B0.
  pose proof (ap_mul a d (Rabs (val a * val d)) Fa Fd (Rle_refl _) ltac:(unfold P in *; lra)) as K1.
  pose proof (ap_mul b c (Rabs (val b * val c)) Fb Fc (Rle_refl _) ltac:(unfold P in *; lra)) as K2.
  assert (H : Rabs (val a * val d - val b * val c) <= P) by (apply abs2m; apply Rle_refl).
  set (A := Rabs (val a * val d)) in *. set (B := Rabs (val b * val c)) in *.
  assert (UA : 0 <= u * A) by (apply Rmult_le_pos; lra). assert (UB : 0 <= u * B) by (apply Rmult_le_pos; lra).
  pose proof (ap_sub _ _ _ _ _ _ P K1 K2 H ltac:(unfold P in *; rewrite uro_val in *; lra)) as K. eapply ap_weaken; [exact K|].
  unfold P. clear - UA UB E0 U A0 B0. assert (u * (u * A + eta + (u * B + eta)) <= u * A / 1000 + u * B / 1000 + eta); [|lra].
  assert (G : forall t, 0 <= t -> u * t <= t / 1000) by (intros t Ht; unfold Rdiv; rewrite (Rmult_comm t); apply Rmult_le_compat_r; [exact Ht|rewrite uro_val; lra]).
  eapply Rle_trans; [apply G; lra|]. lra.
Qed.
(** the two products of a component against the lengths *)
Lemma pair_le : forall a b c d e f : R, Rabs (a * d) + Rabs (b * c) <= N4 a b e 0 * N4 c d f 0.
Proof.
  intros. rewrite !Rabs_mult. pose proof (N4_cauchy_abs a b e 0 d c f 0) as C. rewrite !Rabs_mult, Rabs_R0 in C.
  assert (X : N4 d c f 0 = N4 c d f 0) by (unfold N4; f_equal; ring). rewrite X in C.
  pose proof (Rmult_le_pos _ _ (Rabs_pos e) (Rabs_pos f)). lra.
Qed.
Lemma N4_swap : forall a b c, N4 b c a 0 = N4 a b c 0 /\ N4 c a b 0 = N4 a b c 0 /\ N4 a c b 0 = N4 a b c 0.
Proof. intros. unfold N4. repeat split; f_equal; ring. Qed.

Lemma vcross_err : forall a b : fv, vfinite a -> vfinite b -> vnorm (vval a) * vnorm (vval b) <= big / 2 ->
  vfinite (vcross a b) /\
  vdist (vval (vcross a b)) (rcross (vval a) (vval b)) <= 402 / 100 * u * (vnorm (vval a) * vnorm (vval b)) + 8 * eta.
Proof.
  intros [a b c] [d e f] (Fa & Fb & Fc) (Fd & Fe & Ff) H. cbn [vx vy vz] in *. rewrite !vnorm_N4 in *. unfold vval in *. cbn [vx vy vz] in *.
  pose proof uro_pos as U. pose proof eta_pos as E0.
  set (A := val a) in *. set (B := val b) in *. set (C := val c) in *. set (D := val d) in *. set (E := val e) in *. set (F := val f) in *.
  set (N := N4 A B C 0 * N4 D E F 0) in *. assert (N0 : 0 <= N) by (apply Rmult_le_pos; apply N4_pos).
  assert (P1 : Rabs (B * F) + Rabs (C * E) <= N).
  { pose proof (pair_le B C E F A D) as Q. rewrite (proj1 (N4_swap A B C)), (proj1 (N4_swap D E F)) in Q. exact Q. }
  assert (P2 : Rabs (C * D) + Rabs (A * F) <= N).
  { pose proof (pair_le C A F D B E) as Q. rewrite (proj1 (proj2 (N4_swap A B C))), (proj1 (proj2 (N4_swap D E F))) in Q. exact Q. }
  assert (P3 : Rabs (A * E) + Rabs (B * D) <= N) by apply (pair_le A B D E C F).
  pose proof (det2_ap b c e f Fb Fc Fe Ff) as K1. cbv zeta in K1. specialize (K1 (Rle_trans _ _ _ P1 H)).
  pose proof (det2_ap c a f d Fc Fa Ff Fd) as K2. cbv zeta in K2. specialize (K2 (Rle_trans _ _ _ P2 H)).
  pose proof (det2_ap a b d e Fa Fb Fd Fe) as K3. cbv zeta in K3. specialize (K3 (Rle_trans _ _ _ P3 H)).
  fold A B C D E F in K1, K2, K3.
  assert (G : forall P, P <= N -> 201 / 100 * u * P + 4 * eta <= 201 / 100 * u * N + 4 * eta) by (intros; apply Rplus_le_compat_r, Rmult_le_compat_l; lra).
  unfold vcross. cbn [vx vy vz]. cbn [F64 ssub smul scar] in *.
  split; [split; [exact (proj1 K1)|split; [exact (proj1 K2)|exact (proj1 K3)]]|].
  unfold vdist. rewrite vnorm_N4. unfold rcross. cbn [vx vy vz]. cbn [RS ssub scar].
  eapply Rle_trans; [apply (N4_mono _ _ _ _ (201 / 100 * u * N + 4 * eta) (201 / 100 * u * N + 4 * eta) (201 / 100 * u * N + 4 * eta) (201 / 100 * u * N + 4 * eta))|].
  - exact (Rle_trans _ _ _ (proj2 K1) (G _ P1)).
  - exact (Rle_trans _ _ _ (proj2 K2) (G _ P2)).
  - exact (Rle_trans _ _ _ (proj2 K3) (G _ P3)).
  - rewrite Rabs_R0. assert (0 <= 201 / 100 * u * N) by (apply Rmult_le_pos; lra). lra.
  - assert (0 <= 201 / 100 * u * N) by (apply Rmult_le_pos; lra). rewrite N4_same by lra. lra.
Qed.
End W.

Lemma rcross_norm : forall a b : vec3 RS, vnorm (rcross a b) <= vnorm a * vnorm b.
Proof.
  intros [a b c] [d e f]. rewrite !vnorm_N4. unfold rcross. cbn [vx vy vz]. apply le_sq; [apply Rmult_le_pos; apply N4_pos|].
  replace (N4 a b c 0 * N4 d e f 0 * (N4 a b c 0 * N4 d e f 0)) with ((N4 a b c 0 * N4 a b c 0) * (N4 d e f 0 * N4 d e f 0)) by ring.
  rewrite !N4_sq. cbn [RS scar] in *. pose proof (Rle_0_sqr (a * d + b * e + c * f)) as Q. unfold Rsqr in Q. nra.
Qed.
Lemma vdist_cross : forall a b c : vec3 RS, vdist (rcross a b) (rcross a c) <= vnorm a * vdist b c.
Proof.
  intros [a1 a2 a3] [b1 b2 b3] [c1 c2 c3]. pose proof (rcross_norm (@V3 RS a1 a2 a3) (@V3 RS (b1 - c1) (b2 - c2) (b3 - c3))) as H.
  unfold vdist. cbn [vx vy vz]. cbn [RS ssub scar]. eapply Rle_trans; [|exact H]. right. unfold rcross. cbn [vx vy vz]. apply (f_equal vnorm). apply f_equal3; cbn [RS scar]; ring.
Qed.

(** ** The whole wrench *)
Section M.
Context {lm : libm}.
Notation fq := (quat (F64 lm)).
Notation fv := (vec3 (F64 lm)).
Lemma torque_err : forall (q : fq) (t f w : fv), qfinite q -> vfinite t -> vfinite f -> vfinite w -> 1 / 2 <= qnorm (qval q) <= 2 ->
  vnorm (vval f) <= big / 8 -> vnorm (vval w) <= big / 8 -> vnorm (vval t) <= big / 8 -> vnorm (vval t) * vnorm (vval f) <= big / 8 ->
  vnorm (vval t) * eta <= 1 ->
  let out := vadd (mmulv (mfromQuat q) w) (vcross t (mmulv (mfromQuat q) f)) in
  vfinite out /\
  vdist (vval out) (rplus (turned (qval q) (vval w)) (rcross (vval t) (turned (qval q) (vval f))))
    <= 56 * u * vnorm (vval w) + 60 * u * (vnorm (vval t) * vnorm (vval f)) + 13 * eta * vnorm (vval t) + 32 * eta.
Proof.
  intros q t f w Fq Ft Ff Fw Hq Hf Hw Ht Htf HT out. pose proof big_big as BB. pose proof uro_pos as U. pose proof eta_pos as E0. pose proof eta_1 as E1.
  destruct (mulv_err q f Fq Ff Hq ltac:(lra)) as (Fm & Dm). destruct (mulv_err q w Fq Fw Hq ltac:(lra)) as (Fn & Dn).
  set (m := mmulv (mfromQuat q) f) in *. set (n := mmulv (mfromQuat q) w) in *. clearbody m n.
  set (rf := turned (qval q) (vval f)) in *. set (rw := turned (qval q) (vval w)) in *.
  assert (Nf : vnorm rf = vnorm (vval f)) by (apply turned_norm; lra). assert (Nw : vnorm rw = vnorm (vval w)) by (apply turned_norm; lra). clearbody rf rw.
  pose proof (vnorm_pos (vval f)) as F0. pose proof (vnorm_pos (vval w)) as W0. pose proof (vnorm_pos (vval t)) as T0.
  pose proof (vnorm_dist (vval m) rf) as Km. pose proof (vnorm_dist (vval n) rw) as Kn.
  pose proof (vcross_err t m Ft Fm) as C. pose proof (vdist_cross (vval t) (vval m) rf) as X. pose proof (rcross_norm (vval t) rf) as Y.
  assert (Mul : vnorm (vval t) * vdist (vval m) rf <= 54 * u * (vnorm (vval t) * vnorm (vval f)) + 12 * eta * vnorm (vval t)).
  { eapply Rle_trans; [apply Rmult_le_compat_l; [exact T0|exact Dm]|]. right. ring. }
  assert (TM : vnorm (vval t) * vnorm (vval m) <= vnorm (vval t) * vnorm (vval f) + vnorm (vval t) * vdist (vval m) rf).
  { eapply Rle_trans; [apply Rmult_le_compat_l; [exact T0|exact Km]|]. rewrite Nf. right. ring. }
  rewrite Nf in Y. set (F := vnorm (vval f)) in *. set (W := vnorm (vval w)) in *. set (T := vnorm (vval t)) in *.
  assert (TF0 : 0 <= T * F) by (apply Rmult_le_pos; lra). set (TF := T * F) in *.
  assert (UTF : 0 <= u * TF) by (apply Rmult_le_pos; lra). assert (UW : 0 <= u * W) by (apply Rmult_le_pos; lra). assert (ET : 0 <= eta * T) by (apply Rmult_le_pos; lra).
  assert (G : forall s, 0 <= s -> 0 <= u * s <= s / 1000000).
  { intros s Hs. split; [apply Rmult_le_pos; lra|]. unfold Rdiv. rewrite (Rmult_comm s). apply Rmult_le_compat_r; [exact Hs|rewrite uro_val; lra]. }
  pose proof (G TF TF0) as GT. pose proof (G W W0) as GW. pose proof (G (u * TF) UTF) as GT2. pose proof (G (u * W) UW) as GW2. pose proof (G eta ltac:(lra)) as GE. pose proof (G (eta * T) ET) as GET.
  assert (TM' : T * vnorm (vval m) <= TF + 54 * (u * TF) + 12 * (eta * T)) by lra.
  destruct (C ltac:(lra)) as (Fc & Dc). clear C.
  assert (UTM : u * (T * vnorm (vval m)) <= u * TF + 54 * (u * (u * TF)) + 12 * (u * (eta * T))).
  { eapply Rle_trans; [apply Rmult_le_compat_l; [lra|exact TM']|]. right. ring. }
  set (c := vcross t m) in *. clearbody c. pose proof (vnorm_dist (vval c) (rcross (vval t) rf)) as Kc.
  assert (Dc' : vdist (vval c) (rcross (vval t) rf) <= 581 / 10 * (u * TF) + 125 / 10 * (eta * T) + 8 * eta).
  { eapply Rle_trans; [apply (vdist_triangle _ (rcross (vval t) (vval m)))|]. lra. }
  pose proof (vnorm_add (vval n) (vval c)) as Na.
  destruct (vadd_err n c Fn Fc) as (Fo & Do); [lra|]. split; [exact Fo|]. fold out in Do.
  eapply Rle_trans; [apply (vdist_triangle _ (vadd (vval n) (vval c)))|]. rewrite <- (vadd_rplus rw).
  pose proof (vdist_add (vval n) (vval c) rw (rcross (vval t) rf)) as D2.
  assert (UN : u * vnorm (vadd (vval n) (vval c)) <= u * W + 54 * (u * (u * W)) + 12 * (u * eta) + (u * TF) + 60 * (u * (u * TF)) + 13 * (u * (eta * T)) + 8 * (u * eta)).
  { apply Rle_trans with (u * (W + 54 * (u * W) + 12 * eta + TF + 60 * (u * TF) + 13 * (eta * T) + 8 * eta)); [|right; ring]. apply Rmult_le_compat_l; lra. }
  lra.
Qed.
End M.
