(** * Property C78: Matrix3x3::diagonalize *)
From Coq Require Import ZArith Bool Reals Lra Lia Psatz List.
From Verif Require Import RosTime Scalar LinearMath LinearExtra Diagonalize Instances RealSlerp RealQuat SpecReal RealMatrix SpecExtra RealExtra
  SpecDiag DiagStep DiagProofs.
Open Scope R_scope.

Lemma run_inv : forall (M rot new : mat3 RS) (threshold : R) (maxSteps : Z), symmetric M -> 0 <= threshold ->
  @mdiagonalize RS M threshold maxSteps = (rot, new) ->
  jinv M (IZR (Z.max 0 maxSteps)) rot new /\ (off2 new <= (2 / 3) ^ (Z.to_nat maxSteps) * off2 M \/ stopped threshold new).
Proof.
  intros M rot new thr n Hs Ht H. unfold mdiagonalize in H.
  destruct (loop_ok _ _ _ _ M 0 _ _ Ht (jinv_init M Hs) H) as [A B]. split; [|assumption].
  replace (IZR (Z.max 0 n)) with (0 + INR (Z.to_nat n)); [assumption|].
  rewrite INR_IZR_INZ, Rplus_0_l. f_equal. destruct (Z.max_spec 0 n) as [[? ->]|[? ->]]; lia.
Qed.

(** ** The factorisation: M = rot * new * rot^T up to 2^-58 of M per permitted step *)
Theorem C78_factorises :
  forall (M rot new : mat3 RS) (threshold : R) (maxSteps : Z), symmetric M -> 0 <= threshold ->
  @mdiagonalize RS M threshold maxSteps = (rot, new) ->
  symmetric new /\
  frob (mminus M (mmul (mmul rot new) (mtranspose rot))) <= IZR (Z.max 0 maxSteps) * / 2 ^ 58 * frob M /\
  trace new = trace M /\ frob new <= frob M.
Proof.
  intros M rot new thr n Hs Ht H. destruct (run_inv M rot new thr n Hs Ht H) as [I _].
  replace (/ 2 ^ 58) with eps58 by (unfold eps58; lra).
  split; [apply (j_sym _ _ _ _ I)|]. split; [apply (j_err _ _ _ _ I)|]. split; [apply (j_trace _ _ _ _ I)|].
  apply frob_mono, (j_frob _ _ _ _ I).
Qed.
Print Assumptions C78_factorises.

(** ** rot is a rotation to the same accuracy: orthogonal both ways, never a reflection *)
Theorem C78_rotation :
  forall (M rot new : mat3 RS) (threshold : R) (maxSteps : Z), symmetric M -> 0 <= threshold ->
  @mdiagonalize RS M threshold maxSteps = (rot, new) ->
  frob (mminus midentity (mmul rot (mtranspose rot))) <= IZR (Z.max 0 maxSteps) * / 2 ^ 58 /\
  frob (mminus midentity (mmul (mtranspose rot) rot)) <= IZR (Z.max 0 maxSteps) * / 2 ^ 58 /\
  0 < mdet rot <= 1.
Proof.
  intros M rot new thr n Hs Ht H. destruct (run_inv M rot new thr n Hs Ht H) as [I _].
  replace (/ 2 ^ 58) with eps58 by (unfold eps58; lra).
  split; [apply (j_orth _ _ _ _ I)|]. split; [apply (j_orth' _ _ _ _ I)|]. apply (j_det _ _ _ _ I).
Qed.
Print Assumptions C78_rotation.

(** ** M * rot = rot * new: once new is diagonal, the columns of rot are eigenvectors *)
Theorem C78_eigenvectors :
  forall (M rot new : mat3 RS) (threshold : R) (maxSteps : Z), symmetric M -> 0 <= threshold ->
  @mdiagonalize RS M threshold maxSteps = (rot, new) ->
  frob (mminus (mmul M rot) (mmul rot new)) <= 2 * IZR (Z.max 0 maxSteps) * / 2 ^ 58 * frob M.
Proof.
  intros M rot new thr n Hs Ht H. destruct (run_inv M rot new thr n Hs Ht H) as [I _].
  replace (/ 2 ^ 58) with eps58 by (unfold eps58; lra). apply jinv_eigen; [|assumption].
  apply IZR_le. lia.
Qed.
Print Assumptions C78_eigenvectors.

(** ** It converges: each permitted step shrinks the off-diagonal part by sqrt (2/3), unless the iteration
    stops before because every off-diagonal entry is within sqrt 2 of the documented bound *)
Theorem C78_converges :
  forall (M rot new : mat3 RS) (threshold : R) (maxSteps : Z), symmetric M -> 0 <= threshold ->
  @mdiagonalize RS M threshold maxSteps = (rot, new) ->
  off new <= sqrt (2 / 3) ^ (Z.to_nat maxSteps) * off M \/
  forall i j, (i < 3)%nat -> (j < 3)%nat -> i <> j -> Rabs (entry new i j) <= sqrt 2 * (threshold * diagsum new).
Proof.
  intros M rot new thr n Hs Ht H. destruct (run_inv M rot new thr n Hs Ht H) as [_ [A|A]]; [left|right; exact A].
  change (off new) with (sqrt (off2 new)). change (off M) with (sqrt (off2 M)).
  assert (P : 0 <= sqrt (2 / 3) ^ Z.to_nat n) by (apply pow_le, sqrt_pos).
  rewrite <- (sqrt_square (sqrt (2 / 3) ^ Z.to_nat n)) by assumption.
  rewrite <- sqrt_mult; [|nra|apply off2_pos]. apply sqrt_le_1_alt. rewrite <- Rpow_mult_distr, sqrt_sqrt by lra. exact A.
Qed.
Print Assumptions C78_converges.

(** ** In any arithmetic, floating point included, a symmetric matrix stays symmetric to the bit *)
Theorem C78_stays_symmetric :
  forall (S : Scalar) (M rot new : mat3 S) (threshold : S) (maxSteps : Z),
  vy (m0 M) = vx (m1 M) -> vz (m0 M) = vx (m2 M) -> vz (m1 M) = vy (m2 M) ->
  mdiagonalize M threshold maxSteps = (rot, new) ->
  vy (m0 new) = vx (m1 new) /\ vz (m0 new) = vx (m2 new) /\ vz (m1 new) = vy (m2 new).
Proof.
  intros S M rot new thr n. unfold mdiagonalize. generalize (Z.to_nat n) as k. generalize (midentity : mat3 S) as r.
  intros r k. revert r M. induction k; intros r M H1 H2 H3 H; cbn [diag_loop] in H.
  { injection H as _ <-. auto. }
  destruct (diag_pivot M) as [[[p q] w] mx] eqn:Ep.
  match type of H with (if ?c then _ else _) = _ => destruct c end; [injection H as _ <-; auto|].
  destruct (diag_angle M p q) as [[t c] s].
  assert (D : diag_apply M p q w t c s = diag_apply M p q w t c s /\
    vy (m0 (diag_apply M p q w t c s)) = vx (m1 (diag_apply M p q w t c s)) /\
    vz (m0 (diag_apply M p q w t c s)) = vx (m2 (diag_apply M p q w t c s)) /\
    vz (m1 (diag_apply M p q w t c s)) = vy (m2 (diag_apply M p q w t c s))).
  { split; [reflexivity|]. assert (P : pqr p q w).
    { clear - Ep. unfold diag_pivot in Ep. 
      repeat match type of Ep with context [if ?c then _ else _] => destruct c end; injection Ep as <- <- <- <-; constructor. }
    destruct M as [[a x y] [x' b z] [y' z' d]]. cbn in H1, H2, H3. subst. destruct P; cbn; auto. }
  destruct D as (_ & D1 & D2 & D3).
  match type of H with (if ?c then _ else _) = _ => destruct c end; [injection H as _ <-; auto|]. eapply IHk; eauto.
Qed.
Print Assumptions C78_stays_symmetric.

(** ** Cases *)
Lemma pivot01 : forall a b d x y z : R, Rabs y <= Rabs x -> Rabs z <= Rabs x -> diag_pivot (sym9 a b d x y z) = (0%nat, 1%nat, 2%nat, Rabs x).
Proof.
  intros a b d x y z H1 H2. unfold diag_pivot, sym9, V9, mget. cbn [mrow vget m0 m1 m2 vx vy vz]. runf.
  rewrite (proj2 (Rltb_false _ _) H1). rewrite (proj2 (Rltb_false _ _) H2). reflexivity.
Qed.
Lemma angle45 : forall a d x y z : R, x <> 0 -> diag_angle (sym9 a a d x y z) 0 1 = (1, / sqrt 2, / sqrt 2).
Proof.
  intros a d x y z Hx. unfold diag_angle, sym9, V9, mget, seps. cbn [mrow vget m0 m1 m2 vx vy vz]. runf.
  replace ((a - a) / (2 / 1 * x)) with 0 by (field; assumption).
  rewrite (proj2 (Rltb_true _ _)) by lra. replace (0 / 1) with 0 by field. rewrite (proj2 (Reqb_true 0 0)) by reflexivity.
  rewrite orb_true_r. replace (1 / 1 + 0 * 0) with 1 by field. rewrite sqrt_1.
  replace (1 / 1 / (0 + 1)) with 1 by field. replace (1 / 1 + 1 * 1) with 2 by field. replace (1 / 1 / sqrt 2) with (/ sqrt 2).
  2: { field. pose proof sqrt2_ge1. lra. }
  f_equal. ring.
Qed.
(** one loop iteration on a symmetric matrix whose largest off-diagonal entry is the first *)
Lemma loop01 : forall k (thr a b d x y z t c s : R) r, Rabs y <= Rabs x -> Rabs z <= Rabs x ->
  diag_angle (sym9 a b d x y z) 0 1 = (t, c, s) -> / 4503599627370496 * (thr * (Rabs a + Rabs b + Rabs d)) < Rabs x ->
  @diag_loop RS (S k) thr r (sym9 a b d x y z) =
  let B := sym9 (a - t * x) (b + t * x) d 0 (c * y - s * z) (c * z + s * y) in
  if Rle_dec (Rabs x) (thr * (Rabs a + Rabs b + Rabs d)) then (mmul r (Jm 0 1 c s), B) else @diag_loop RS k thr (mmul r (Jm 0 1 c s)) B.
Proof.
  intros k thr a b d x y z t c s r H1 H2 Ha H. cbn [diag_loop]. rewrite pivot01 by assumption.
  set (T := @smul RS thr _). assert (ET : T = thr * (Rabs a + Rabs b + Rabs d)) by reflexivity.
  assert (E52 : @smul RS seps T = / 4503599627370496 * T) by (unfold seps; runf; field).
  assert (X : sleb (Rabs x : RS) (seps * T)%S = false) by (apply sleb_RS_false; rewrite E52, ET; exact H).
  rewrite X, andb_false_r, Ha. rewrite (rot_is_mul 0 1 2 c s r) by constructor. rewrite (apply_is 0 1 2) by constructor.
  unfold Bm. cbv zeta. destruct (Rle_dec (Rabs x) (thr * (Rabs a + Rabs b + Rabs d))) as [L|L].
  - rewrite (proj2 (sleb_RS (Rabs x) T)) by (rewrite ET; exact L). reflexivity.
  - rewrite (proj2 (sleb_RS_false (Rabs x) T)) by (rewrite ET; cbn [RS scar]; lra). reflexivity.
Qed.

(** [[2 1 0] [1 2 0] [0 0 5]] is diagonalised exactly, with eigenvalues 1, 3, 5 *)
Definition two_one : mat3 RS := V9 2 1 0 1 2 0 0 0 5.
Example C78_case : symmetric two_one /\
  @mdiagonalize RS two_one 0 50 = (V9 (/ sqrt 2) (/ sqrt 2) 0 (- / sqrt 2) (/ sqrt 2) 0 0 0 1, V9 1 0 0 0 3 0 0 0 5).
Proof.
  split; [apply (sym9_sym 2 2 5 1 0 0)|]. unfold mdiagonalize.
  change (Z.to_nat 50) with (S (S 48)). change two_one with (sym9 2 2 5 1 0 0).
  rewrite (loop01 _ 0 2 2 5 1 0 0 1 (/ sqrt 2) (/ sqrt 2)); [|rewrite Rabs_R0; apply Rabs_pos|rewrite Rabs_R0; apply Rabs_pos|apply angle45; lra|rewrite Rmult_0_l, Rmult_0_r, Rabs_R1; lra].
  cbv zeta. destruct (Rle_dec (Rabs 1) _) as [L|_]; [rewrite Rabs_R1 in L; lra|].
  replace (sym9 (2 - 1 * 1) (2 + 1 * 1) 5 0 (/ sqrt 2 * 0 - / sqrt 2 * 0) (/ sqrt 2 * 0 + / sqrt 2 * 0)) with (sym9 1 3 5 0 0 0)
    by (unfold sym9, V9; f_equal; f_equal; cbn [RS scar]; ring).
  rewrite mmul_id_l. cbn [diag_loop]. rewrite pivot01 by apply Rle_refl.
  set (T := @smul RS 0 _). assert (ET : T = 0) by (unfold T; cbn [RS smul]; apply Rmult_0_l).
  assert (X1 : sleb (Rabs 0 : RS) T = true) by (apply sleb_RS; rewrite ET, Rabs_R0; cbn [RS scar]; lra).
  assert (X2 : sleb (Rabs 0 : RS) (seps * T)%S = true) by (apply sleb_RS; rewrite ET, Rabs_R0; cbn [RS scar smul]; rewrite Rmult_0_r; lra).
  rewrite X1, X2. reflexivity.
Qed.

(** ** The documentation says the iteration stops when all off-diagonal entries are less than threshold times the sum
    of the magnitudes of the diagonal: one more rotation follows, and it can lift an entry above that bound again *)
Theorem C78_documented_stop_refuted :
  exists (M rot new : mat3 RS) (threshold : R), symmetric M /\ 0 <= threshold /\
  @mdiagonalize RS M threshold 1000 = (rot, new) /\
  (forall i j, (i < 3)%nat -> (j < 3)%nat -> i <> j -> Rabs (entry M i j) <= threshold * diagsum M) /\
  exists i j, (i < 3)%nat /\ (j < 3)%nat /\ i <> j /\ threshold * diagsum new < Rabs (entry new i j).
Proof.
  exists (sym9 10 10 10 1 (9/10) (9/10)). do 2 eexists. exists (1/30).
  split; [apply sym9_sym|]. split; [lra|].
  assert (A10 : Rabs 10 = 10) by (apply Rabs_pos_eq; lra). assert (A9 : Rabs (9/10) = 9/10) by (apply Rabs_pos_eq; lra).
  split.
  { unfold mdiagonalize. replace (Z.to_nat 1000) with (S 999) by reflexivity.
    rewrite (loop01 _ (1/30) 10 10 10 1 (9/10) (9/10) 1 (/ sqrt 2) (/ sqrt 2)); rewrite ?Rabs_R1, ?A10, ?A9; try lra; [|apply angle45; lra].
    cbv zeta. destruct (Rle_dec 1 (1 / 30 * (10 + 10 + 10))) as [_|L]; [reflexivity|lra]. }
  split.
  - intros i j Hi Hj Hij.
    destruct i as [|[|[|i]]]; try lia; destruct j as [|[|[|j]]]; try lia; unfold diagsum, entry, sym9, V9; cbn [m0 m1 m2 vx vy vz];
      rewrite ?A10, ?Rabs_R1, ?A9; lra.
  - exists 1%nat, 2%nat. repeat split; try lia. unfold diagsum, entry, sym9, V9. cbn [m0 m1 m2 vx vy vz].
    rewrite A10, (Rabs_pos_eq (10 - 1 * 1)), (Rabs_pos_eq (10 + 1 * 1)) by lra.
    pose proof sqrt2_ge1 as G. assert (Q : sqrt 2 * sqrt 2 = 2) by (apply sqrt_sqrt; lra).
    replace (/ sqrt 2 * (9 / 10) + / sqrt 2 * (9 / 10)) with (9 / 10 * sqrt 2).
    2: { apply Rmult_eq_reg_r with (sqrt 2); [|lra]. replace ((/ sqrt 2 * (9 / 10) + / sqrt 2 * (9 / 10)) * sqrt 2) with (9 / 10 * 2) by (field; lra).
         rewrite Rmult_assoc, Q. reflexivity. }
    rewrite Rabs_pos_eq by lra. nra.
Qed.
Print Assumptions C78_documented_stop_refuted.

(** ** "old_this = rot * new_this * rot^T" with rot a rotation is not exact even in exact arithmetic: for a nearly
    diagonal matrix the code uses an approximate angle *)
Theorem C78_exact_rotation_refuted :
  exists M rot new : mat3 RS, symmetric M /\ @mdiagonalize RS M 0 1 = (rot, new) /\ mmul rot (mtranspose rot) <> midentity.
Proof.
  exists (sym9 0 40000 0 1 0 0).
  set (t := 1 / (20000 * (2 + 1 / 2 / (20000 * 20000)))). set (c := 1 - 1 / 2 * t * t).
  exists (mmul midentity (Jm 0 1 c (c * t))). eexists. split; [apply sym9_sym|]. split.
  - unfold mdiagonalize. change (Z.to_nat 1) with (S 0).
    rewrite (loop01 _ 0 0 40000 0 1 0 0 t c (c * t)); rewrite ?Rabs_R1, ?Rabs_R0; try lra.
    + cbv zeta. destruct (Rle_dec 1 (0 * (0 + Rabs 40000 + 0))) as [L|_]; [lra|]. cbn [diag_loop]. reflexivity.
    + unfold diag_angle, sym9, V9, mget, seps. cbn [mrow vget m0 m1 m2 vx vy vz]. runf.
      replace ((40000 - 0) / (2 / 1 * 1)) with 20000 by field. rewrite (proj2 (Rltb_false _ _)) by lra.
      replace (1 / 1 / (20000 * (2 / 1 + 1 / 2 / (20000 * 20000)))) with t by (unfold t; field).
      replace (1 / 1 - 1 / 2 * t * t) with c by (unfold c; field). reflexivity.
  - rewrite mmul_id_l, midentity_eq. unfold Jm, V9. lm_unfold. intros E. injection E as E _ _ _ _ _ _ _ _.
    assert (Et : 0 < t < 1/2) by (unfold t; lra).
    assert (K : c * c + c * t * (c * t) = 1 - 3/4 * (t * t * (t * t)) + t * t * (t * t) * (t * t) / 4) by (unfold c; field).
    assert (Y : 0 < t * t < 1) by nra. assert (Y2 : 0 < t * t * (t * t)) by nra. nra.
Qed.
Print Assumptions C78_exact_rotation_refuted.
