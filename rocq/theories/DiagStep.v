(** * The Jacobi iteration: proofs *)
From Coq Require Import ZArith Bool Reals Lra Lia Psatz List.
From Verif Require Import RosTime Scalar LinearMath LinearExtra Diagonalize Instances RealSlerp RealQuat SpecReal RealMatrix SpecExtra RealExtra SpecDiag.
Open Scope R_scope.

Local Ltac runf' := unfold sleb in *; runf.

(** ** The angle *)
Definition delta : R := / 4503599627370496 / 160.
Lemma delta_pos : 0 < delta. Proof. unfold delta. lra. Qed.

(** facts about a rotation (t, c, s) chosen for the 2x2 block [[app apq] [apq aqq]] *)
Record good (app aqq apq t c s : R) : Prop := {
  g_s : s = c * t;
  g_c : 0 < c <= 1;
  g_t : -1 <= t <= 1;
  g_k : 1 - delta <= c * c * (1 + t * t) <= 1;
  g_r : exists rho theta, - delta <= rho <= 0 /\ aqq - app = 2 * apq * theta /\ rho = t * t + 2 * theta * t - 1 /\ 0 <= theta * t
}.

Lemma exact_t : forall th, let t := if Rle_dec 0 th then 1 / (th + sqrt (1 + th * th)) else 1 / (th - sqrt (1 + th * th)) in
  t * t + 2 * th * t - 1 = 0 /\ -1 <= t <= 1 /\ 0 <= th * t.
Proof.
  intros th. assert (Hp : 0 <= 1 + th * th) by nra.
  pose proof (sqrt_sqrt _ Hp) as Hs. pose proof (sqrt_pos (1 + th * th)) as Hn. set (r := sqrt (1 + th * th)) in *. clearbody r.
  assert (R1 : 1 <= r) by nra.
  destruct (Rle_dec 0 th) as [H|H]; cbn zeta.
  - set (d := th + r). assert (Hd : 1 <= d) by (unfold d; lra).
    assert (Ht : 0 < 1 / d <= 1).
    { split; [apply Rdiv_lt_0_compat; lra|]. apply Rmult_le_reg_r with d; [lra|]. field_simplify; lra. }
    split; [|split; [lra|apply Rmult_le_pos; lra]].
    apply Rmult_eq_reg_r with (d * d); [|nra]. field_simplify; [|lra]. unfold d. nra.
  - assert (H' : th < 0) by lra. set (d := th - r). assert (Hd : d <= -1) by (unfold d; lra).
    assert (Ht : -1 <= 1 / d < 0).
    { replace (1 / d) with (- (1 / - d)) by (field; lra). assert (0 < 1 / - d <= 1); [|lra].
      split; [apply Rdiv_lt_0_compat; lra|]. apply Rmult_le_reg_r with (- d); [lra|]. field_simplify; lra. }
    split; [|split; [lra|nra]].
    apply Rmult_eq_reg_r with (d * d); [|nra]. field_simplify; [|lra]. unfold d. nra.
Qed.

Lemma cos_of_t : forall t, -1 <= t <= 1 -> let c := 1 / sqrt (1 + t * t) in 0 < c <= 1 /\ c * c * (1 + t * t) = 1.
Proof.
  intros t Ht c. assert (Hp : 0 <= 1 + t * t) by nra. pose proof (sqrt_sqrt _ Hp) as Hs. pose proof (sqrt_pos (1 + t * t)) as Hn.
  unfold c. set (r := sqrt (1 + t * t)) in *. clearbody r. assert (R1 : 1 <= r) by nra.
  split.
  - split; [apply Rdiv_lt_0_compat; lra|]. apply Rmult_le_reg_r with r; [lra|]. field_simplify; lra.
  - rewrite <- Hs. field. lra.
Qed.

Lemma approx_t : forall th, 10 * 4503599627370496 <= th * th * (th * th) ->
  let t := 1 / (th * (2 + 1 / 2 / (th * th))) in let c := 1 - 1 / 2 * t * t in
  0 < c <= 1 /\ -1 <= t <= 1 /\ 1 - delta <= c * c * (1 + t * t) <= 1 /\
  - delta <= t * t + 2 * th * t - 1 <= 0 /\ 0 <= th * t.
Proof.
  intros th H t c.
  set (x := th * th) in *. assert (X0 : 0 <= x) by (unfold x; nra).
  assert (X1 : 1000 <= x) by nra.
  assert (Hth : th <> 0) by (intro E; unfold x in X1; rewrite E in X1; lra).
  assert (Et : t = 2 * th / (4 * x + 1)).
  { unfold t, x. field. repeat split; try assumption; unfold x in X1; nra. }
  set (w := / (4 * x + 1)). assert (W : w * (4 * x + 1) = 1) by (unfold w; field; lra).
  assert (Wp : 0 < w) by (unfold w; apply Rinv_0_lt_compat; lra).
  assert (Et' : t = 2 * th * w) by (rewrite Et; reflexivity). clearbody t.
  assert (T2 : t * t = 4 * x * w * w) by (rewrite Et'; unfold x; ring).
  assert (Tt : th * t = 2 * x * w) by (rewrite Et'; unfold x; ring).
  assert (Ww : w * w <= delta).
  { (* (4x+1)^2 >= 16 x^2 >= 160 * 2^52 *)
    assert (B : 160 * 4503599627370496 <= (4 * x + 1) * (4 * x + 1)) by nra.
    replace (w * w) with (/ ((4 * x + 1) * (4 * x + 1))) by (unfold w; field; lra).
    unfold delta. replace (/ 4503599627370496 / 160) with (/ (160 * 4503599627370496)) by (field; lra).
    apply Rinv_le_contravar; [lra|exact B]. }
  assert (Wx : 4 * x * w = 1 - w) by lra.
  assert (T2' : t * t = w - w * w) by (rewrite T2; rewrite Wx; ring).
  assert (W1 : w <= / 4001) by (unfold w; apply Rinv_le_contravar; lra).
  assert (Ts : 0 <= t * t <= w) by nra.
  set (y := t * t) in *.
  assert (Ec : c = 1 - y / 2) by (unfold c, y; field).
  assert (Ek : c * c * (1 + y) = 1 - 3/4 * (y * y) + y * y * y / 4) by (rewrite Ec; field).
  assert (Y2 : y * y <= w * w) by nra. assert (Y3 : 0 <= y * y * y) by nra. assert (Y4 : y * y * y <= y * y) by nra.
  assert (Y5 : 0 <= y * y) by nra.
  repeat apply conj.
  - rewrite Ec. lra.
  - rewrite Ec. lra.
  - unfold y in *. nra.
  - unfold y in *. nra.
  - rewrite Ek. nra.
  - rewrite Ek. nra.
  - replace (2 * th * t) with (2 * (th * t)) by ring. rewrite Tt, T2'. replace (2 * (2 * x * w)) with (4 * x * w) by ring. rewrite Wx. lra.
  - replace (2 * th * t) with (2 * (th * t)) by ring. rewrite Tt, T2'. replace (2 * (2 * x * w)) with (4 * x * w) by ring. rewrite Wx. nra.
  - rewrite Tt. nra.
Qed.

Lemma angle_good : forall (m : rmat) p q, mget m p q <> 0 -> forall t c s, diag_angle m p q = (t, c, s) ->
  good (mget m p p) (mget m q q) (mget m p q) t c s.
Proof.
  intros m p q Hn t c s. unfold diag_angle. set (app := mget m p p). set (aqq := mget m q q).
  set (apq := mget m p q) in *. clearbody app aqq apq. unfold seps. runf.
  replace (1 / 1) with 1 by field. replace (2 / 1) with 2 by field. replace (0 / 1) with 0 by field.
  set (th := (aqq - app) / (2 * apq)). assert (Eth : aqq - app = 2 * apq * th) by (unfold th; field; assumption). clearbody th.
  replace (10 / 1 / (1 / 4503599627370496)) with (10 * 4503599627370496) by field.
  destruct (Rltb (th * th * (th * th)) (10 * 4503599627370496)) eqn:E.
  - clear E. intros H.
    assert (Ht : t = if Rle_dec 0 th then 1 / (th + sqrt (1 + th * th)) else 1 / (th - sqrt (1 + th * th))).
    { injection H as H1 _ _. rewrite <- H1. 
      destruct (Rle_dec 0 th) as [L|L].
      - destruct (Rltb 0 th) eqn:E1; [reflexivity|]. apply Rltb_false in E1.
        destruct (Reqb th 0) eqn:E2; [reflexivity|]. apply Reqb_false in E2. lra.
      - destruct (Rltb 0 th) eqn:E1; [apply Rltb_true in E1; lra|].
        destruct (Reqb th 0) eqn:E2; [apply Reqb_true in E2; lra|]. reflexivity. }
    destruct (exact_t th) as (A1 & A2 & A3). rewrite <- Ht in A1, A2, A3.
    assert (Hc : c = 1 / sqrt (1 + t * t)) by (injection H as H1 H2 _; rewrite <- H2, H1; reflexivity).
    assert (Hs : s = c * t) by (injection H as H1 H2 H3; rewrite <- H3, H2, H1; reflexivity).
    destruct (cos_of_t t A2) as [B1 B2]. rewrite <- Hc in B1, B2. pose proof delta_pos.
    constructor; [assumption|assumption|assumption|lra|]. exists 0, th. repeat apply conj; try lra; assumption.
  - apply Rltb_false in E. intros H. destruct (approx_t th E) as (A1 & A2 & A3 & A4 & A5).
    assert (Ht : t = 1 / (th * (2 + 1 / 2 / (th * th)))) by (injection H as H1 _ _; rewrite <- H1; reflexivity).
    assert (Hc : c = 1 - 1 / 2 * t * t) by (injection H as H1 H2 _; rewrite <- H2, H1; reflexivity).
    assert (Hs : s = c * t) by (injection H as H1 H2 H3; rewrite <- H3, H2, H1; reflexivity).
    clear H. rewrite <- Ht in *. rewrite <- Hc in *.
    constructor; try assumption. eexists _, th. split; [exact A4|]. repeat apply conj; auto.
Qed.

(** ** Scalar facts of one rotation *)
Lemma abs_lin : forall k l x y, - delta <= k <= delta -> - delta <= l <= delta -> Rabs (k * x + l * y) <= delta * (Rabs x + Rabs y).
Proof.
  intros. eapply Rle_trans; [apply Rabs_triang|]. rewrite !Rabs_mult. rewrite Rmult_plus_distr_l.
  apply Rplus_le_compat; (apply Rmult_le_compat_r; [apply Rabs_pos|]); apply Rabs_le; lra.
Qed.
Lemma sq_err : forall e x y, Rabs e <= delta * (Rabs x + Rabs y) -> sq e <= delta * delta * (2 * (sq x + sq y)).
Proof.
  intros e x y H. pose proof delta_pos as Hd. pose proof (Rabs_pos e). pose proof (Rabs_pos x). pose proof (Rabs_pos y).
  assert (A : forall a, sq a = Rabs a * Rabs a) by (intro a; unfold sq; rewrite <- Rabs_mult; symmetry; apply Rabs_pos_eq; nra).
  rewrite !A. set (E := Rabs e) in *. set (X := Rabs x) in *. set (Y := Rabs y) in *. clearbody E X Y. clear A.
  apply Rle_trans with ((delta * (X + Y)) * (delta * (X + Y))); [apply Rmult_le_compat; lra|].
  replace (delta * (X + Y) * (delta * (X + Y))) with (delta * delta * ((X + Y) * (X + Y))) by ring.
  apply Rmult_le_compat_l; [apply Rmult_le_pos; lra|]. clear. pose proof (Rle_0_sqr (X - Y)) as Q. unfold Rsqr in Q. lra.
Qed.
Section Block.
Context (app aqq apq t c s : R) (G : good app aqq apq t c s).
Let K := 1 - c * c * (1 + t * t).
Lemma K_range : 0 <= K <= delta.
Proof. unfold K. destruct (g_k _ _ _ _ _ _ G). lra. Qed.
Lemma cs_sq : c * c + s * s = 1 - K.
Proof. unfold K. rewrite (g_s _ _ _ _ _ _ G). ring. Qed.
Lemma diag_squares : sq (app - t * apq) + sq (aqq + t * apq) <= sq app + sq aqq + 2 * sq apq.
Proof.
  destruct (g_r _ _ _ _ _ _ G) as (rho & th & Hr & He & Hrho & _). unfold sq.
  replace ((app - t * apq) * (app - t * apq) + (aqq + t * apq) * (aqq + t * apq))
    with (app * app + aqq * aqq + 2 * t * apq * (aqq - app) + 2 * (t * t) * (apq * apq)) by ring.
  rewrite He. replace (2 * t * apq * (2 * apq * th)) with (2 * (apq * apq) * (2 * th * t)) by ring.
  assert (Q : 0 <= apq * apq) by nra. assert (2 * th * t = 1 + rho - t * t) by lra. rewrite H. nra.
Qed.
Lemma diag_abs : Rabs app + Rabs aqq <= Rabs (app - t * apq) + Rabs (aqq + t * apq).
Proof.
  destruct (g_r _ _ _ _ _ _ G) as (rho & th & Hr & He & Hrho & Hp).
  assert (D : Rabs (aqq - app) <= Rabs ((aqq + t * apq) - (app - t * apq))).
  { apply Rsqr_le_abs_0. unfold Rsqr.
    replace (aqq + t * apq - (app - t * apq)) with (2 * apq * (th + t)) by lra. rewrite He.
    replace (2 * apq * th * (2 * apq * th)) with (4 * (apq * apq) * (th * th)) by ring.
    replace (2 * apq * (th + t) * (2 * apq * (th + t))) with (4 * (apq * apq) * ((th + t) * (th + t))) by ring.
    apply Rmult_le_compat_l; nra. }
  assert (E : aqq + app = (aqq + t * apq) + (app - t * apq)) by ring.
  set (u := app - t * apq) in *. set (v := aqq + t * apq) in *. clearbody u v. clear - D E.
  unfold Rabs in *. repeat match goal with |- context [Rcase_abs ?x] => destruct (Rcase_abs x) | H : context [Rcase_abs ?x] |- _ => destruct (Rcase_abs x) end; lra.
Qed.
Lemma side_squares : forall u v, sq (c * u - s * v) + sq (c * v + s * u) = (1 - K) * (sq u + sq v).
Proof. intros. rewrite <- cs_sq. unfold sq. ring. Qed.
Lemma side_le : forall u v, sq (c * u - s * v) + sq (c * v + s * u) <= sq u + sq v.
Proof. intros. rewrite side_squares. pose proof K_range. unfold sq. nra. Qed.
Lemma side_le' : forall u v, sq (c * u + s * v) + sq (c * v - s * u) <= sq u + sq v.
Proof. intros. pose proof (side_le v u). lra. Qed.

(** entries of A - J B J^T *)
Lemma err_pp : Rabs (app - (c * c * (app - t * apq) + s * s * (aqq + t * apq))) <= delta * (Rabs app + Rabs apq).
Proof.
  destruct (g_r _ _ _ _ _ _ G) as (rho & th & Hr & He & Hrho & Hp). pose proof K_range as HK.
  replace (app - (c * c * (app - t * apq) + s * s * (aqq + t * apq))) with (K * app + (- (c * c * t * rho)) * apq).
  2: { unfold K. rewrite (g_s _ _ _ _ _ _ G), Hrho. replace aqq with (app + 2 * apq * th) by lra. ring. }
  pose proof (g_c _ _ _ _ _ _ G). pose proof (g_t _ _ _ _ _ _ G). apply abs_lin; [lra|].
  assert (0 <= c * c <= 1) by nra. assert (-1 <= c * c * t <= 1) by nra. nra.
Qed.
Lemma err_qq : Rabs (aqq - (s * s * (app - t * apq) + c * c * (aqq + t * apq))) <= delta * (Rabs aqq + Rabs apq).
Proof.
  destruct (g_r _ _ _ _ _ _ G) as (rho & th & Hr & He & Hrho & Hp). pose proof K_range as HK.
  replace (aqq - (s * s * (app - t * apq) + c * c * (aqq + t * apq))) with (K * aqq + (c * c * t * rho) * apq).
  2: { unfold K. rewrite (g_s _ _ _ _ _ _ G), Hrho. replace app with (aqq - 2 * apq * th) by lra. ring. }
  pose proof (g_c _ _ _ _ _ _ G). pose proof (g_t _ _ _ _ _ _ G). apply abs_lin; [lra|].
  assert (0 <= c * c <= 1) by nra. assert (-1 <= c * c * t <= 1) by nra. nra.
Qed.
Lemma err_pq : Rabs (apq - c * s * ((aqq + t * apq) - (app - t * apq))) <= delta * (Rabs apq + Rabs apq).
Proof.
  destruct (g_r _ _ _ _ _ _ G) as (rho & th & Hr & He & Hrho & Hp). pose proof K_range as HK.
  replace (apq - c * s * (aqq + t * apq - (app - t * apq))) with (K * apq + (- (c * c * rho)) * apq).
  2: { unfold K. rewrite (g_s _ _ _ _ _ _ G), Hrho. replace app with (aqq - 2 * apq * th) by lra. ring. }
  pose proof (g_c _ _ _ _ _ _ G). apply abs_lin; [lra|].
  assert (0 <= c * c <= 1) by nra. nra.
Qed.
End Block.

(** ** Matrix level *)
Definition frob2 (m : rmat) : R :=
  sq (entry m 0 0) + sq (entry m 0 1) + sq (entry m 0 2) + sq (entry m 1 0) + sq (entry m 1 1) + sq (entry m 1 2)
  + sq (entry m 2 0) + sq (entry m 2 1) + sq (entry m 2 2).
Definition off2 (m : rmat) : R :=
  sq (entry m 0 1) + sq (entry m 0 2) + sq (entry m 1 0) + sq (entry m 1 2) + sq (entry m 2 0) + sq (entry m 2 1).
Lemma sq_pos : forall x, 0 <= sq x. Proof. intro. unfold sq. nra. Qed.
Lemma frob2_pos : forall m, 0 <= frob2 m.
Proof. intro m. unfold frob2. repeat apply Rplus_le_le_0_compat; apply sq_pos. Qed.
Lemma off2_pos : forall m, 0 <= off2 m.
Proof. intro m. unfold off2. repeat apply Rplus_le_le_0_compat; apply sq_pos. Qed.
Definition sym9 (a b c x y z : R) : rmat := V9 a x y x b z y z c.
Lemma sym_sym9 : forall m, symmetric m -> exists a b c x y z, m = sym9 a b c x y z.
Proof.
  intros [[a x y] [x' b z] [y' z' c]] H. pose proof (H 0 1)%nat as H1. pose proof (H 0 2)%nat as H2. pose proof (H 1 2)%nat as H3.
  cbn in H1, H2, H3. exists a, b, c, x, y, z. unfold sym9, V9. cbn [RS scar] in *. rewrite H1, H2, H3. reflexivity.
Qed.
Lemma sym9_sym : forall a b c x y z, symmetric (sym9 a b c x y z).
Proof. intros a b c x y z [|[|i]] [|[|j]]; reflexivity. Qed.

Definition Jm (p q : nat) (c s : R) : rmat :=
  match p, q with
  | 0%nat, 1%nat => V9 c s 0 (- s) c 0 0 0 1
  | 0%nat, _ => V9 c 0 s 0 1 0 (- s) 0 c
  | _, _ => V9 1 0 0 0 c s 0 (- s) c
  end.
(** the three index triples that occur *)
Inductive pqr : nat -> nat -> nat -> Prop :=
| pqr012 : pqr 0 1 2 | pqr021 : pqr 0 2 1 | pqr120 : pqr 1 2 0.

Lemma rot_is_mul : forall p q r c s (R0 : rmat), pqr p q r -> diag_rot R0 p q c s = mmul R0 (Jm p q c s).
Proof.
  intros p q r c s [[a1 a2 a3] [b1 b2 b3] [c1 c2 c3]] H. destruct H; unfold diag_rot, diag_row, Jm, V9; lm_unfold; cbn [vget vset vx vy vz]; meq; ring.
Qed.
(** the new matrix *)
Definition Bm (p q : nat) (a b d x y z t c s : R) : rmat :=
  match p, q with
  | 0%nat, 1%nat => sym9 (a - t * x) (b + t * x) d 0 (c * y - s * z) (c * z + s * y)
  | 0%nat, _ => sym9 (a - t * y) b (d + t * y) (c * x - s * z) 0 (c * z + s * x)
  | _, _ => sym9 a (b - t * z) (d + t * z) (c * x - s * y) (c * y + s * x) 0
  end.
Lemma apply_is : forall p q r a b d x y z t c s, pqr p q r ->
  diag_apply (sym9 a b d x y z) p q r t c s = Bm p q a b d x y z t c s.
Proof.
  intros p q r a b d x y z t c s H. destruct H; unfold diag_apply, Bm, sym9, V9, mset, mget; cbn [mrow msetrow vget vset m0 m1 m2 vx vy vz]; runf;
   replace (0 / 1) with 0 by field; meq; ring.
Qed.

Ltac ent := unfold frob2, off2, mminus, entry, Jm, Bm, sym9, V9, mtranspose, mmul, mtdotx, mtdoty, mtdotz in *;
  cbn [m0 m1 m2 vx vy vz] in *; runf.

(** what one rotation does to the current matrix *)
Record step_ok (A B J : rmat) (mx : R) : Prop := {
  st_sym : symmetric B;
  st_frob : frob2 B <= frob2 A;
  st_off : off2 B <= off2 A - 2 * sq mx;
  st_dsum : diagsum A <= diagsum B;
  st_side : forall i j, (i < 3)%nat -> (j < 3)%nat -> i <> j -> sq (entry B i j) <= 2 * sq mx;
  st_trace : trace B = trace A;
  st_err : frob2 (mminus A (mmul (mmul J B) (mtranspose J))) <= 6 * (delta * delta) * frob2 A;
  st_J : forall v : rvec, inner (mmulv J v) (mmulv J v) <= inner v v;
  st_JT : forall v : rvec, inner (mmulv (mtranspose J) v) (mmulv (mtranspose J) v) <= inner v v;
  st_orth : frob2 (mminus midentity (mmul J (mtranspose J))) <= 2 * (delta * delta);
  st_orth' : frob2 (mminus midentity (mmul (mtranspose J) J)) <= 2 * (delta * delta);
  st_det : 0 < mdet J <= 1
}.

Lemma pivot_ok : forall a b d x y z p q r mx, diag_pivot (sym9 a b d x y z) = (p, q, r, mx) ->
  pqr p q r /\ mx = Rabs (mget (sym9 a b d x y z) p q) /\ Rabs x <= mx /\ Rabs y <= mx /\ Rabs z <= mx.
Proof.
  intros a b d x y z p q r mx. unfold diag_pivot, sym9, V9, mget. cbn [mrow vget m0 m1 m2 vx vy vz]. runf.
  destruct (Rltb (Rabs x) (Rabs y)) eqn:E1; [apply Rltb_true in E1|apply Rltb_false in E1].
  - destruct (Rltb (Rabs y) (Rabs z)) eqn:E2; [apply Rltb_true in E2|apply Rltb_false in E2]; intros H; injection H as <- <- <- <-;
      (split; [constructor|]); cbn [mrow vget m0 m1 m2 vx vy vz]; repeat split; lra.
  - destruct (Rltb (Rabs x) (Rabs z)) eqn:E2; [apply Rltb_true in E2|apply Rltb_false in E2]; intros H; injection H as <- <- <- <-;
      (split; [constructor|]); cbn [mrow vget m0 m1 m2 vx vy vz]; repeat split; lra.
Qed.

Lemma err_sum : forall app aqq apq t c s u v, good app aqq apq t c s ->
  sq (app - (c * c * (app - t * apq) + s * s * (aqq + t * apq)))
  + sq (aqq - (s * s * (app - t * apq) + c * c * (aqq + t * apq)))
  + 2 * sq (apq - c * s * ((aqq + t * apq) - (app - t * apq)))
  + 2 * sq (u - (c * (c * u - s * v) + s * (c * v + s * u))) + 2 * sq (v - (c * (c * v + s * u) - s * (c * u - s * v)))
  <= 6 * (delta * delta) * (sq app + sq aqq + 2 * sq apq + 2 * sq u + 2 * sq v).
Proof.
  intros app aqq apq t c s u v G.
  pose proof (sq_err _ _ _ (err_pp _ _ _ _ _ _ G)) as E1. pose proof (sq_err _ _ _ (err_qq _ _ _ _ _ _ G)) as E2.
  pose proof (sq_err _ _ _ (err_pq _ _ _ _ _ _ G)) as E3.
  pose proof (K_range _ _ _ _ _ _ G) as HK. pose proof (cs_sq _ _ _ _ _ _ G) as HC. cbv zeta in HK, HC.
  set (K := 1 - c * c * (1 + t * t)) in *.
  replace (u - (c * (c * u - s * v) + s * (c * v + s * u))) with (u * (1 - (c * c + s * s))) by ring.
  replace (v - (c * (c * v + s * u) - s * (c * u - s * v))) with (v * (1 - (c * c + s * s))) by ring.
  rewrite HC. replace (1 - (1 - K)) with K by ring.
  set (D := delta * delta) in *.
  assert (HKK : K * K <= D) by (unfold D; apply Rmult_le_compat; lra).
  assert (F : forall w, sq (w * K) <= D * sq w).
  { intro w. unfold sq. replace (w * K * (w * K)) with (K * K * (w * w)) by ring. apply Rmult_le_compat_r; [nra|assumption]. }
  pose proof (F u). pose proof (F v). assert (HD : 0 <= D) by (unfold D; pose proof delta_pos; nra).
  pose proof (Rmult_le_pos _ _ HD (sq_pos app)). pose proof (Rmult_le_pos _ _ HD (sq_pos aqq)). pose proof (Rmult_le_pos _ _ HD (sq_pos apq)).
  pose proof (Rmult_le_pos _ _ HD (sq_pos u)). pose proof (Rmult_le_pos _ _ HD (sq_pos v)).
  clearbody K D. lra.
Qed.

Lemma sq_0 : sq 0 = 0. Proof. unfold sq. ring. Qed.
Lemma midentity_V9 : (midentity : rmat) = V9 1 0 0 0 1 0 0 0 1. Proof. exact midentity_eq. Qed.

Ltac jnorm c s e f g HC HK :=
  assert ((c * c + s * s) * (e * e + f * f) <= e * e + f * f) by (rewrite HC; clear - HK; nra);
  assert ((c * c + s * s) * (e * e + g * g) <= e * e + g * g) by (rewrite HC; clear - HK; nra);
  assert ((c * c + s * s) * (f * f + g * g) <= f * f + g * g) by (rewrite HC; clear - HK; nra); lra.
Ltac jorth c s K HC DK :=
  match goal with |- ?l <= _ => replace l with (2 * sq (1 - (c * c + s * s))) by (unfold sq; ring) end;
  rewrite HC; replace (1 - (1 - K)) with K by ring; lra.
Ltac jstep c s u v :=
    unfold mget, sym9, V9; cbn [mrow vget m0 m1 m2 vx vy vz];
    match goal with EM : sq _ = sq (mget _ _ _) |- _ => unfold mget, sym9, V9 in EM; cbn [mrow vget m0 m1 m2 vx vy vz] in EM end;
    let G := fresh "G" in intros G;
    let P1 := fresh "P1" in let P2 := fresh "P2" in let P3 := fresh "P3" in let P5 := fresh "P5" in
    pose proof (diag_squares _ _ _ _ _ _ G) as P1; pose proof (diag_abs _ _ _ _ _ _ G) as P2;
    pose proof (side_le _ _ _ _ _ _ G u v) as P3; pose proof (err_sum _ _ _ _ _ _ u v G) as P5;
    let HK := fresh "HK" in let HC := fresh "HC" in let Gc := fresh "Gc" in
    pose proof (K_range _ _ _ _ _ _ G) as HK; pose proof (cs_sq _ _ _ _ _ _ G) as HC; pose proof (g_c _ _ _ _ _ _ G) as Gc;
    cbv zeta in HK, HC;
    let K := fresh "K" in match type of HK with 0 <= ?k <= _ => set (K := k) in * end;
    let DK := fresh "DK" in assert (DK : sq K <= delta * delta) by (unfold sq; apply Rmult_le_compat; lra);
    let SU := fresh "SU" in let SV := fresh "SV" in
    pose proof (sq_pos (c * u - s * v)) as SU; pose proof (sq_pos (c * v + s * u)) as SV;
    constructor;
    [ apply sym9_sym
    | ent; lra
    | ent; lra
    | unfold diagsum; ent; lra
    | let i := fresh in let j := fresh in intros i j ? ? ?; destruct i as [|[|[|i]]]; try lia; destruct j as [|[|[|j]]]; try lia; ent; lra
    | unfold trace; ent; ring
    | clear - P5; eapply Rle_trans; [|eapply Rle_trans; [exact P5|]];
      [ apply Req_le; ent; unfold sq; ring | apply Rmult_le_compat_l; [pose proof delta_pos; nra|]; ent; unfold sq; nra ]
    | let e := fresh in let f := fresh in let g := fresh in intros [e f g]; unfold inner; ent; lm_unfold; cbn [RS scar] in e, f, g; jnorm c s e f g HC HK
    | let e := fresh in let f := fresh in let g := fresh in intros [e f g]; unfold inner; ent; lm_unfold; cbn [RS scar] in e, f, g; jnorm c s e f g HC HK
    | rewrite midentity_V9; ent; jorth c s K HC DK
    | rewrite midentity_V9; ent; jorth c s K HC DK
    | ent; lm_unfold; match goal with |- 0 < ?d <= 1 => replace d with (c * c + s * s) by ring end; rewrite HC; unfold delta in HK; lra ].
Lemma step_ok_sym : forall a b d x y z p q r mx t c s, pqr p q r -> mx = Rabs (mget (sym9 a b d x y z) p q) ->
  Rabs x <= mx -> Rabs y <= mx -> Rabs z <= mx ->
  good (mget (sym9 a b d x y z) p p) (mget (sym9 a b d x y z) q q) (mget (sym9 a b d x y z) p q) t c s ->
  step_ok (sym9 a b d x y z) (Bm p q a b d x y z t c s) (Jm p q c s) mx.
Proof.
  intros a b d x y z p q r mx t c s H Em Hx Hy Hz.
  assert (A : forall w, sq w = sq (Rabs w)).
  { intro w. unfold sq. rewrite <- Rabs_mult. symmetry. apply Rabs_pos_eq. nra. }
  assert (L : forall w, Rabs w <= mx -> sq w <= sq mx).
  { intros w Hw. rewrite A. unfold sq. pose proof (Rabs_pos w). apply Rmult_le_compat; lra. }
  assert (EM : sq mx = sq (mget (sym9 a b d x y z) p q)) by (rewrite (A (mget (sym9 a b d x y z) p q)), Em; reflexivity).
  pose proof (L _ Hx) as Sx. pose proof (L _ Hy) as Sy. pose proof (L _ Hz) as Sz. clear Em Hx Hy Hz A L.
  pose proof sq_0 as S0. pose proof (sq_pos x) as X0. pose proof (sq_pos y) as Y0. pose proof (sq_pos z) as Z0.
  destruct H.
  - jstep c s y z.
  - jstep c s x z.
  - jstep c s x y.
Qed.
