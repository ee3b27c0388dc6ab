(** * The Jacobi iteration: the loop *)
From Coq Require Import ZArith Bool Reals Lra Lia Psatz List.
From Verif Require Import RosTime Scalar LinearMath LinearExtra Diagonalize Instances RealSlerp RealQuat SpecReal RealMatrix SpecExtra RealExtra SpecDiag DiagStep.
Open Scope R_scope.

Definition eps58 : R := / 288230376151711744.

Lemma frob_def : forall m, frob m = sqrt (frob2 m). Proof. reflexivity. Qed.
Lemma frob_pos : forall m, 0 <= frob m. Proof. intro. apply sqrt_pos. Qed.
Lemma frob_sq : forall m, frob m * frob m = frob2 m. Proof. intro. apply sqrt_sqrt, frob2_pos. Qed.
Lemma frob_mono : forall a b, frob2 a <= frob2 b -> frob a <= frob b.
Proof. intros. rewrite !frob_def. apply sqrt_le_1_alt. assumption. Qed.
Lemma frob_bound : forall a k, 0 <= k -> frob2 a <= k * k -> frob a <= k.
Proof. intros a k Hk H. rewrite frob_def, <- (sqrt_square k Hk). apply sqrt_le_1_alt. assumption. Qed.

Lemma norm_mono : forall x y z x' y' z' : R, 0 <= x <= x' -> 0 <= y <= y' -> 0 <= z <= z' ->
  norm (@V3 RS x y z) <= norm (@V3 RS x' y' z').
Proof.
  intros. apply sqrt_le_1_alt. unfold inner. cbn [vx vy vz RS scar]. nra.
Qed.
Lemma frob_rows : forall m, frob m = norm (@V3 RS (norm (m0 m)) (norm (m1 m)) (norm (m2 m))).
Proof.
  intros [[a b c] [d e f] [g h i]]. rewrite frob_def. unfold norm at 1. f_equal. unfold inner at 1. cbn [vx vy vz RS scar m0 m1 m2].
  rewrite !norm_sq. unfold inner, frob2, entry, sq. cbn [vx vy vz RS scar m0 m1 m2]. ring.
Qed.
Lemma frob_mid : forall x y z, frob (mminus x z) <= frob (mminus x y) + frob (mminus y z).
Proof.
  intros x y z. rewrite !frob_rows.
  set (u := mminus x y). set (v := mminus y z).
  assert (E : forall f, f = m0 \/ f = m1 \/ f = m2 -> norm (f (mminus x z)) <= norm (f u) + norm (f v)).
  { intros f Hf. replace (f (mminus x z)) with (@V3 RS (vx (f u) + vx (f v)) (vy (f u) + vy (f v)) (vz (f u) + vz (f v))).
    - apply norm_triangle.
    - unfold u, v, mminus. destruct Hf as [-> | [-> | ->]]; cbn [m0 m1 m2 vx vy vz]; f_equal; cbn [RS scar]; ring. }
  eapply Rle_trans; [|apply norm_triangle]. cbn [vx vy vz].
  apply norm_mono; (split; [apply norm_nonneg|]); apply E; auto.
Qed.

Definition contr (r : rmat) : Prop := forall v : rvec, inner (mmulv r v) (mmulv r v) <= inner v v.
Lemma contr_mul : forall a b, contr a -> contr b -> contr (mmul a b).
Proof. intros a b Ha Hb v. rewrite mmulv_mul. eapply Rle_trans; [apply Ha|apply Hb]. Qed.
Lemma frob2_cols : forall m, frob2 m = inner (m0 (mtranspose m)) (m0 (mtranspose m)) + inner (m1 (mtranspose m)) (m1 (mtranspose m)) + inner (m2 (mtranspose m)) (m2 (mtranspose m)).
Proof. intros [[a b c] [d e f] [g h i]]. unfold frob2, inner, mtranspose, entry, sq. cbn [vx vy vz m0 m1 m2 RS scar]. ring. Qed.
Lemma frob2_tr : forall m, frob2 (mtranspose m) = frob2 m.
Proof. intros [[a b c] [d e f] [g h i]]. unfold frob2, mtranspose, entry, sq. cbn [vx vy vz m0 m1 m2 RS scar]. ring. Qed.
Lemma contr_l : forall r x, contr r -> frob2 (mmul r x) <= frob2 x.
Proof.
  intros r x H. rewrite !frob2_cols.
  assert (E : forall f, f = m0 \/ f = m1 \/ f = m2 -> f (mtranspose (mmul r x)) = mmulv r (f (mtranspose x))).
  { intros f Hf. destruct r as [[a b c] [d e g] [h i j]], x as [[a' b' c'] [d' e' g'] [h' i' j']].
    clear H. destruct Hf as [-> | [-> | ->]]; lm_unfold; meq; ring. }
  rewrite !E by auto. apply Rplus_le_compat; [apply Rplus_le_compat|]; apply H.
Qed.
Lemma contr_r : forall r x, contr (mtranspose r) -> frob2 (mmul x r) <= frob2 x.
Proof. intros r x H. rewrite <- frob2_tr, mtranspose_mul. rewrite <- (frob2_tr x). apply contr_l. assumption. Qed.
Lemma conj_minus : forall r a b : rmat, mminus (mmul (mmul r a) (mtranspose r)) (mmul (mmul r b) (mtranspose r)) = mmul (mmul r (mminus a b)) (mtranspose r).
Proof.
  intros [[r1 r2 r3] [r4 r5 r6] [r7 r8 r9]] [[a1 a2 a3] [a4 a5 a6] [a7 a8 a9]] [[b1 b2 b3] [b4 b5 b6] [b7 b8 b9]].
  unfold mminus, entry. lm_unfold. meq; ring.
Qed.

(** the invariant after k rotations, for the original matrix M *)
Record jinv (M : rmat) (k : R) (r A : rmat) : Prop := {
  j_sym : symmetric A;
  j_frob : frob2 A <= frob2 M;
  j_trace : trace A = trace M;
  j_c : contr r;
  j_ct : contr (mtranspose r);
  j_err : frob (mminus M (mmul (mmul r A) (mtranspose r))) <= k * eps58 * frob M;
  j_orth : frob (mminus midentity (mmul r (mtranspose r))) <= k * eps58;
  j_orth' : frob (mminus midentity (mmul (mtranspose r) r)) <= k * eps58;
  j_det : 0 < mdet r <= 1
}.
Lemma frob2_zero : forall m : rmat, frob (mminus m m) = 0.
Proof.
  intro m. rewrite frob_def. transitivity (sqrt 0); [|apply sqrt_0]. f_equal. unfold frob2, mminus, entry, sq.
  cbn [m0 m1 m2 vx vy vz RS scar]. ring.
Qed.
Lemma jinv_init : forall M, symmetric M -> jinv M 0 midentity M.
Proof.
  intros M H.
  assert (T : mtranspose (midentity : rmat) = midentity) by reflexivity.
  constructor; auto; rewrite ?T, ?mmul_id_l, ?mmul_id_r, ?frob2_zero; try lra.
  - intro v. rewrite mmulv_id. lra.
  - intro v. rewrite mmulv_id. lra.
  - rewrite midentity_eq. unfold V9. lm_unfold. lra.
Qed.
Lemma delta_eps : 6 * (delta * delta) <= eps58 * eps58.
Proof. unfold delta, eps58. lra. Qed.
Lemma eps_pos : 0 < eps58. Proof. unfold eps58. lra. Qed.
Lemma jinv_step : forall M k r A B J mx, jinv M k r A -> step_ok A B J mx -> jinv M (k + 1) (mmul r J) B.
Proof.
  intros M k r A B J mx I S. pose proof eps_pos as He. pose proof delta_eps as Hd.
  assert (Hp : 0 <= delta * delta) by (pose proof delta_pos; nra).
  assert (E : frob (mminus A (mmul (mmul J B) (mtranspose J))) <= eps58 * frob M).
  { apply frob_bound; [pose proof (frob_pos M); nra|].
    eapply Rle_trans; [apply (st_err _ _ _ _ S)|].
    replace (eps58 * frob M * (eps58 * frob M)) with (eps58 * eps58 * (frob M * frob M)) by ring. rewrite frob_sq.
    apply Rmult_le_compat; [nra|apply frob2_pos|assumption|apply (j_frob _ _ _ _ I)]. }
  constructor.
  - apply (st_sym _ _ _ _ S).
  - eapply Rle_trans; [apply (st_frob _ _ _ _ S)|apply (j_frob _ _ _ _ I)].
  - rewrite (st_trace _ _ _ _ S). apply (j_trace _ _ _ _ I).
  - apply contr_mul; [apply (j_c _ _ _ _ I)|exact (st_J _ _ _ _ S)].
  - rewrite mtranspose_mul. apply contr_mul; [exact (st_JT _ _ _ _ S)|apply (j_ct _ _ _ _ I)].
  - replace (mmul (mmul (mmul r J) B) (mtranspose (mmul r J))) with (mmul (mmul r (mmul (mmul J B) (mtranspose J))) (mtranspose r))
      by (rewrite mtranspose_mul, !mmul_assoc; reflexivity).
    eapply Rle_trans; [apply frob_mid with (y := mmul (mmul r A) (mtranspose r))|]. rewrite conj_minus.
    replace ((k + 1) * eps58 * frob M) with (k * eps58 * frob M + eps58 * frob M) by ring.
    apply Rplus_le_compat; [apply (j_err _ _ _ _ I)|]. eapply Rle_trans; [|exact E].
    apply frob_mono. eapply Rle_trans; [apply contr_r; rewrite mtranspose_inv; apply (j_c _ _ _ _ I)|]. apply contr_l, (j_c _ _ _ _ I).
  - replace (mmul (mmul r J) (mtranspose (mmul r J))) with (mmul (mmul r (mmul J (mtranspose J))) (mtranspose r))
      by (rewrite mtranspose_mul, !mmul_assoc; reflexivity).
    eapply Rle_trans; [apply frob_mid with (y := mmul (mmul r midentity) (mtranspose r))|]. rewrite conj_minus.
    replace ((k + 1) * eps58) with (k * eps58 + eps58) by ring. apply Rplus_le_compat.
    + rewrite mmul_id_r. apply (j_orth _ _ _ _ I).
    + apply frob_bound; [lra|].
      eapply Rle_trans; [apply contr_r; rewrite mtranspose_inv; apply (j_c _ _ _ _ I)|]. 
      eapply Rle_trans; [apply contr_l, (j_c _ _ _ _ I)|]. eapply Rle_trans; [apply (st_orth _ _ _ _ S)|]. lra.
  - replace (mmul (mtranspose (mmul r J)) (mmul r J)) with (mmul (mmul (mtranspose J) (mmul (mtranspose r) r)) (mtranspose (mtranspose J)))
      by (rewrite mtranspose_inv, mtranspose_mul, !mmul_assoc; reflexivity).
    eapply Rle_trans; [apply frob_mid with (y := mmul (mmul (mtranspose J) midentity) (mtranspose (mtranspose J)))|]. rewrite conj_minus.
    replace ((k + 1) * eps58) with (eps58 + k * eps58) by ring. apply Rplus_le_compat.
    + rewrite mmul_id_r, mtranspose_inv. apply frob_bound; [lra|]. eapply Rle_trans; [apply (st_orth' _ _ _ _ S)|]. lra.
    + eapply Rle_trans; [|apply (j_orth' _ _ _ _ I)]. apply frob_mono.
      eapply Rle_trans; [apply contr_r; rewrite !mtranspose_inv; exact (st_JT _ _ _ _ S)|]. apply contr_l. exact (st_JT _ _ _ _ S).
  - rewrite mdet_mul. pose proof (j_det _ _ _ _ I). pose proof (st_det _ _ _ _ S). cbn [RS smul]. nra.
Qed.

Lemma jinv_mono : forall M k k' r A, k <= k' -> jinv M k r A -> jinv M k' r A.
Proof.
  intros M k k' r A Hk I. pose proof eps_pos as He. pose proof (frob_pos M) as Hf. destruct I. constructor; auto.
  - eapply Rle_trans; [eassumption|]. apply Rmult_le_compat_r; [assumption|]. apply Rmult_le_compat_r; lra.
  - eapply Rle_trans; [eassumption|]. apply Rmult_le_compat_r; lra.
  - eapply Rle_trans; [eassumption|]. apply Rmult_le_compat_r; lra.
Qed.
Lemma sleb_RS : forall a b : RS, sleb a b = true <-> (a <= b)%R.
Proof.
  intros a b. unfold sleb. runf. rewrite orb_true_iff, Rltb_true, Reqb_true. lra.
Qed.
Lemma sleb_RS_false : forall a b : RS, sleb a b = false <-> (b < a)%R.
Proof. intros a b. rewrite <- Bool.not_true_iff_false, sleb_RS. lra. Qed.

Definition stopped (thr : R) (B : rmat) : Prop :=
  forall i j, (i < 3)%nat -> (j < 3)%nat -> i <> j -> Rabs (entry B i j) <= sqrt 2 * (thr * diagsum B).
Lemma sqrt2_ge1 : 1 <= sqrt 2.
Proof. rewrite <- sqrt_1. apply sqrt_le_1_alt. lra. Qed.
Lemma diagsum_pos : forall B, 0 <= diagsum B.
Proof. intro B. unfold diagsum. pose proof (Rabs_pos (entry B 0 0)). pose proof (Rabs_pos (entry B 1 1)). pose proof (Rabs_pos (entry B 2 2)). lra. Qed.

(** one iteration of the loop *)
Inductive iter (thr : R) (r A : rmat) : option (bool * rmat * rmat) -> Prop :=
| iter_return : stopped thr A -> iter thr r A None
| iter_rotate : forall B J mx (last : bool), step_ok A B J mx -> off2 A <= 6 * sq mx -> 0 < mx -> (last = true -> mx <= thr * diagsum A) ->
    iter thr r A (Some (last, mmul r J, B)).
Lemma loop_iter : forall n thr (r A : rmat), 0 <= thr -> symmetric A ->
  exists o, iter thr r A o /\
  @diag_loop RS (S n) thr r A = match o with None => (r, A) | Some (true, r', B) => (r', B) | Some (false, r', B) => @diag_loop RS n thr r' B end.
Proof.
  intros n thr r A Ht Hs. destruct (sym_sym9 A Hs) as (a & b & d & x & y & z & ->).
  set (A := sym9 a b d x y z) in *.
  cbn [diag_loop]. destruct (diag_pivot A) as [[[p q] w] mx] eqn:Ep.
  destruct (pivot_ok _ _ _ _ _ _ _ _ _ _ Ep) as (Hpq & Em & Hx & Hy & Hz). fold A in Em.
  set (t := @smul RS thr (sadd (sadd (sabs (mget A 0 0)) (sabs (mget A 1 1))) (sabs (mget A 2 2)))).
  assert (Et : t = thr * diagsum A) by reflexivity.
  assert (T0 : 0 <= t) by (rewrite Et; apply Rmult_le_pos; [assumption|apply diagsum_pos]).
  assert (E52 : @smul RS seps t = / 4503599627370496 * t) by (unfold seps; runf; field).
  destruct (sleb mx t && sleb mx (seps * t)%S)%bool eqn:El.
  - apply andb_true_iff in El as [L1 L2]. apply sleb_RS in L1.
    exists None. split; [|reflexivity]. constructor. intros i j Hi Hj Hij. rewrite <- Et.
    assert (Rabs (entry A i j) <= mx).
    { destruct i as [|[|[|i]]]; try lia; destruct j as [|[|[|j]]]; try lia; unfold A, entry, sym9, V9; cbn [m0 m1 m2 vx vy vz]; assumption. }
    pose proof sqrt2_ge1. cbn [RS scar] in *. nra.
  - assert (Mn : mget A p q <> 0).
    { intro Z. rewrite Z, Rabs_R0 in Em. rewrite Em in El. assert (X1 : sleb (0 : RS) t = true) by (apply sleb_RS; assumption).
      assert (X2 : sleb (0 : RS) (seps * t)%S = true) by (apply sleb_RS; rewrite E52; cbn [RS scar] in *; nra).
      rewrite X1, X2 in El. discriminate. }
    destruct (diag_angle A p q) as [[t' c] s] eqn:Ea.
    pose proof (angle_good A p q Mn t' c s Ea) as G.
    pose proof (step_ok_sym a b d x y z p q w mx t' c s Hpq Em Hx Hy Hz G) as St.
    rewrite (rot_is_mul p q w c s r Hpq). unfold A at 1 2 3. rewrite (apply_is p q w a b d x y z t' c s Hpq). fold A in St |- *.
    assert (M0 : 0 < mx) by (rewrite Em; apply Rabs_pos_lt; assumption).
    exists (Some (sleb mx t, mmul r (Jm p q c s), Bm p q a b d x y z t' c s)). split.
    + apply iter_rotate with (mx := mx); [exact St| |assumption|].
      * unfold A, off2, entry, sym9, V9. cbn [m0 m1 m2 vx vy vz].
        assert (L : forall v, Rabs v <= mx -> sq v <= sq mx).
        { intros v Hv. unfold sq. rewrite <- (Rabs_pos_eq (v * v)) by nra. rewrite Rabs_mult. pose proof (Rabs_pos v). apply Rmult_le_compat; lra. }
        pose proof (L _ Hx). pose proof (L _ Hy). pose proof (L _ Hz). lra.
      * intros L. apply sleb_RS in L. rewrite <- Et. exact L.
    + destruct (sleb mx t); reflexivity.
Qed.

Lemma stopped_last : forall thr A B J mx, 0 <= thr -> step_ok A B J mx -> 0 < mx -> mx <= thr * diagsum A -> stopped thr B.
Proof.
  intros thr A B J mx Ht S M0 L i j Hi Hj Hij.
  pose proof (st_side _ _ _ _ S i j Hi Hj Hij) as H. pose proof (st_dsum _ _ _ _ S) as D.
  apply Rle_trans with (sqrt 2 * mx).
  - apply Rsqr_incr_0_var; [|pose proof sqrt2_ge1; nra]. unfold Rsqr. rewrite <- Rabs_mult, Rabs_pos_eq by nra.
    replace (sqrt 2 * mx * (sqrt 2 * mx)) with (sqrt 2 * sqrt 2 * (mx * mx)) by ring. rewrite sqrt_sqrt by lra. exact H.
  - apply Rmult_le_compat_l; [pose proof sqrt2_ge1; lra|]. nra.
Qed.

Lemma loop_ok : forall n thr (r A : rmat) M k r' B, 0 <= thr -> jinv M k r A -> @diag_loop RS n thr r A = (r', B) ->
  jinv M (k + INR n) r' B /\ (off2 B <= (2 / 3) ^ n * off2 A \/ stopped thr B).
Proof.
  induction n; intros thr r A M k r' B Ht I H.
  - cbn in H. injection H as <- <-. split; [apply jinv_mono with k; [cbn; lra|assumption]|]. left. cbn. lra.
  - destruct (loop_iter n thr r A Ht (j_sym _ _ _ _ I)) as (o & Hi & E). rewrite E in H. clear E.
    rewrite S_INR. pose proof (pos_INR n) as Pn.
    destruct Hi as [St|B1 J mx last St O6 M0 L].
    + injection H as <- <-. split; [apply jinv_mono with k; [lra|assumption]|]. right. assumption.
    + pose proof (jinv_step _ _ _ _ _ _ _ I St) as I'. destruct last.
      * injection H as <- <-. split; [apply jinv_mono with (k + 1); [lra|assumption]|]. right. eapply stopped_last; eauto.
      * destruct (IHn thr _ _ M (k + 1) r' B Ht I' H) as [A1 A2]. split.
        -- eapply jinv_mono; [|exact A1]. lra.
        -- destruct A2 as [A2|A2]; [left|right; assumption]. eapply Rle_trans; [exact A2|].
           pose proof (st_off _ _ _ _ St) as O. cbn [pow].
           replace (2 / 3 * (2 / 3) ^ n * off2 A) with ((2 / 3) ^ n * (2 / 3 * off2 A)) by ring.
           apply Rmult_le_compat_l; [apply pow_le; lra|]. lra.
Qed.

(** eigenvectors *)
Lemma frob_mul : forall a b : rmat, frob (mmul a b) <= frob a * frob b.
Proof.
  intros a b. pose proof (frob_pos a). pose proof (frob_pos b). apply frob_bound; [nra|].
  replace (frob a * frob b * (frob a * frob b)) with ((frob a * frob a) * (frob b * frob b)) by ring. rewrite !frob_sq.
  assert (C : forall u v : rvec, sq (inner u v) <= inner u u * inner v v).
  { intros [u1 u2 u3] [v1 v2 v3]. unfold inner, sq. cbn [vx vy vz RS scar] in *.
    pose proof (Rle_0_sqr (u1 * v2 - u2 * v1)) as Q1. pose proof (Rle_0_sqr (u1 * v3 - u3 * v1)) as Q2. pose proof (Rle_0_sqr (u2 * v3 - u3 * v2)) as Q3.
    unfold Rsqr in *. lra. }
  set (bt := mtranspose b). assert (Eb : b = mtranspose bt) by (unfold bt; rewrite mtranspose_inv; reflexivity).
  assert (Ef : frob2 b = frob2 bt) by (unfold bt; rewrite frob2_tr; reflexivity). rewrite Ef, Eb. clearbody bt. clear Ef Eb.
  assert (Row : forall m, frob2 m = inner (m0 m) (m0 m) + inner (m1 m) (m1 m) + inner (m2 m) (m2 m)).
  { intros [[x1 x2 x3] [x4 x5 x6] [x7 x8 x9]]. unfold frob2, inner, entry, sq. cbn [vx vy vz m0 m1 m2 RS scar]. ring. }
  rewrite (Row a), (Row bt).
  replace (frob2 (mmul a (mtranspose bt))) with
    (sq (inner (m0 a) (m0 bt)) + sq (inner (m0 a) (m1 bt)) + sq (inner (m0 a) (m2 bt))
     + sq (inner (m1 a) (m0 bt)) + sq (inner (m1 a) (m1 bt)) + sq (inner (m1 a) (m2 bt))
     + sq (inner (m2 a) (m0 bt)) + sq (inner (m2 a) (m1 bt)) + sq (inner (m2 a) (m2 bt))).
  - pose proof (C (m0 a) (m0 bt)). pose proof (C (m0 a) (m1 bt)). pose proof (C (m0 a) (m2 bt)).
    pose proof (C (m1 a) (m0 bt)). pose proof (C (m1 a) (m1 bt)). pose proof (C (m1 a) (m2 bt)).
    pose proof (C (m2 a) (m0 bt)). pose proof (C (m2 a) (m1 bt)). pose proof (C (m2 a) (m2 bt)). lra.
  - destruct a as [[x1 x2 x3] [x4 x5 x6] [x7 x8 x9]], bt as [[y1 y2 y3] [y4 y5 y6] [y7 y8 y9]].
    unfold frob2, inner, entry, sq. lm_unfold. cbn [m0 m1 m2 vx vy vz]. ring.
Qed.
Lemma minus_mul_r : forall a b c : rmat, mminus (mmul a c) (mmul b c) = mmul (mminus a b) c.
Proof.
  intros [[r1 r2 r3] [r4 r5 r6] [r7 r8 r9]] [[a1 a2 a3] [a4 a5 a6] [a7 a8 a9]] [[b1 b2 b3] [b4 b5 b6] [b7 b8 b9]].
  unfold mminus, entry. lm_unfold. meq; ring.
Qed.
Lemma minus_mul_l : forall a b c : rmat, mminus (mmul c a) (mmul c b) = mmul c (mminus a b).
Proof.
  intros [[r1 r2 r3] [r4 r5 r6] [r7 r8 r9]] [[a1 a2 a3] [a4 a5 a6] [a7 a8 a9]] [[b1 b2 b3] [b4 b5 b6] [b7 b8 b9]].
  unfold mminus, entry. lm_unfold. meq; ring.
Qed.
Lemma frob_minus_sym : forall a b, frob (mminus a b) = frob (mminus b a).
Proof.
  intros a b. rewrite !frob_def. f_equal. unfold frob2, mminus, entry, sq. cbn [m0 m1 m2 vx vy vz RS scar]. ring.
Qed.
Lemma jinv_eigen : forall M k r A, 0 <= k -> jinv M k r A -> frob (mminus (mmul M r) (mmul r A)) <= 2 * k * eps58 * frob M.
Proof.
  intros M k r A Hk I. pose proof eps_pos as He. pose proof (frob_pos M) as Hf.
  eapply Rle_trans; [apply frob_mid with (y := mmul (mmul (mmul r A) (mtranspose r)) r)|].
  replace (2 * k * eps58 * frob M) with (k * eps58 * frob M + k * eps58 * frob M) by ring.
  apply Rplus_le_compat.
  - rewrite minus_mul_r. eapply Rle_trans; [|apply (j_err _ _ _ _ I)]. apply frob_mono, contr_r, (j_ct _ _ _ _ I).
  - replace (mmul (mmul (mmul r A) (mtranspose r)) r) with (mmul (mmul r A) (mmul (mtranspose r) r)) by (rewrite !mmul_assoc; reflexivity).
    replace (mmul r A) with (mmul (mmul r A) midentity) at 2 by apply mmul_id_r.
    rewrite minus_mul_l. eapply Rle_trans; [apply frob_mul|].
    rewrite Rmult_comm. rewrite frob_minus_sym.
    apply Rmult_le_compat; [apply frob_pos|apply frob_pos|apply (j_orth' _ _ _ _ I)|].
    apply frob_mono. eapply Rle_trans; [apply contr_l, (j_c _ _ _ _ I)|apply (j_frob _ _ _ _ I)].
Qed.
