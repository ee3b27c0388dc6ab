(** * From the stored transforms to the transformed point, in binary64 *)
From Coq Require Import ZArith Bool Reals Floats.SpecFloat List String Lia Lra Psatz.
From Verif Require Import RosTime Scalar LinearMath Cache BufferCore SpecCore Instances RealSlerp RealQuat RealMatrix GeomMsgs BufferInterface
  SpecRound FloatErr RoundNorm RoundOps RoundChain RoundLookup RoundSlerp SpecReal SpecApply RoundApply.
Import ListNotations.
Open Scope R_scope.
Local Notation u := uro.

Lemma nonzero_norm : forall q : quat RS, 0 < qnorm q -> nonzero q.
Proof. intros q H. pose proof (qnorm_sq q) as E. unfold nonzero. destruct q as [x y z w]. cbn [qx qy qz qw] in *. cbn [RS scar] in *. nra. Qed.
Lemma qnormalized_norm : forall q : quat RS, 0 < qnorm q -> qnorm (qnormalized q) = 1.
Proof.
  intros q H. pose proof (qnormalized_unit q (nonzero_norm q H)) as U. pose proof (qnorm_sq (qnormalized q)) as E. unfold qunit in U.
  destruct (qnormalized q) as [x y z w]. cbn [qx qy qz qw] in *. cbn [RS scar] in *. pose proof (qnorm_pos (@Q4 RS x y z w)) as P. set (n := qnorm _) in *. nra.
Qed.
Lemma turned_rotate : forall (q : quat RS) v, 0 < qnorm q -> turned q v = quatRotate (qnormalized q) v.
Proof.
  intros q v H. pose proof (nonzero_norm q H) as N. rewrite turned_matrix by exact N. rewrite <- (mfromQuat_normalized q) by exact N.
  apply mfromQuat_rotate, qnormalized_unit, N.
Qed.
Lemma turned_norm : forall (q : quat RS) v, 0 < qnorm q -> vnorm (turned q v) = vnorm v.
Proof. intros q v H. rewrite turned_rotate, vnorm_rotate, qnormalized_norm by exact H. ring. Qed.

Lemma qdist_scale1 : forall (p : quat RS) (a b : R), qdist (qscale p (a : RS)) (qscale p (b : RS)) = Rabs (a - b) * qnorm p.
Proof.
  intros [x y z w] a b. unfold qdist. rewrite !qnorm_N4. cbn [qx qy qz qw qscale]. rewrite <- N4_scale. f_equal; rr.
Qed.
Lemma qdist_scale2 : forall (p q : quat RS) (a : R), qdist (qscale p (a : RS)) (qscale q (a : RS)) = Rabs a * qdist p q.
Proof.
  intros [x y z w] [x' y' z' w'] a. unfold qdist. rewrite !qnorm_N4. cbn [qx qy qz qw qscale]. rewrite <- N4_scale. f_equal; rr.
Qed.
Lemma qnormalized_is : forall q : quat RS, 0 < qnorm q -> qnormalized q = qscale q (/ qnorm q : RS).
Proof.
  intros q H. unfold qnormalized, qdivs. f_equal. change (@sone RS / qnorm q = / qnorm q). unfold sone. cbn [RS slit]. field. lra.
Qed.
Lemma normalized_dist : forall p q : quat RS, 0 < qnorm p -> 0 < qnorm q -> qdist (qnormalized p) (qnormalized q) <= 2 * qdist p q / qnorm q.
Proof.
  intros p q Hp Hq. pose proof (qnorm_dist p q) as D1. pose proof (qnorm_dist q p) as D2.
  assert (Sy : qdist q p = qdist p q). { destruct p as [a b c d], q as [e f g h]. unfold qdist, qnorm. cbn [qx qy qz qw]. cbn [RS scar]. f_equal. ring. }
  rewrite Sy in D2. rewrite !qnormalized_is by assumption.
  eapply Rle_trans; [apply (qdist_triangle _ (qscale p (/ qnorm q : RS)))|]. rewrite qdist_scale1, qdist_scale2.
  set (P := qnorm p) in *. set (Q := qnorm q) in *. set (d := qdist p q) in *. assert (IQ : 0 < / Q) by (apply Rinv_0_lt_compat; exact Hq).
  rewrite (Rabs_pos_eq (/ Q)) by lra.
  assert (E : Rabs (/ P - / Q) * P = Rabs (Q - P) * / Q).
  { replace (/ P - / Q) with ((Q - P) * / Q * / P) by (field; lra). rewrite !Rabs_mult, (Rabs_pos_eq (/ Q)) by lra.
    rewrite (Rabs_pos_eq (/ P)) by (left; apply Rinv_0_lt_compat; exact Hp). field. lra. }
  rewrite E. assert (Rabs (Q - P) * / Q <= d * / Q) by (apply Rmult_le_compat_r; [lra|apply Rabs_le; lra]). unfold Rdiv. lra.
Qed.
(** Turning by a slightly different quaternion *)
Lemma turned_near : forall (p q : quat RS) v, 0 < qnorm p -> 0 < qnorm q -> vdist (turned p v) (turned q v) <= 4 * qdist p q / qnorm q * vnorm v.
Proof.
  intros p q v Hp Hq. rewrite !turned_rotate by assumption. eapply Rle_trans; [apply vdist_rotate|].
  rewrite !qnormalized_norm, vdist_self by assumption. pose proof (normalized_dist p q Hp Hq) as D. pose proof (vnorm_pos v) as V.
  assert (qdist (qnormalized p) (qnormalized q) * vnorm v <= 2 * qdist p q / qnorm q * vnorm v) by (apply Rmult_le_compat_r; assumption).
  unfold Rdiv in *. lra.
Qed.
Lemma vadd_rplus : forall a b : vec3 RS, vadd a b = rplus a b.
Proof. reflexivity. Qed.

Section P.
Context {lm : libm}.
Notation fq := (quat (F64 lm)).
Notation fv := (vec3 (F64 lm)).

Lemma apply_err : forall (q : fq) (t v : fv), qfinite q -> vfinite t -> vfinite v -> 1 / 2 <= qnorm (qval q) <= 2 ->
  vnorm (vval v) <= big / 8 -> vnorm (vval t) <= big / 8 ->
  vfinite (xapply (XF (mfromQuat q) t) v) /\
  vdist (vval (xapply (XF (mfromQuat q) t) v)) (rplus (turned (qval q) (vval v)) (vval t)) <= 56 * u * vnorm (vval v) + 2 * u * vnorm (vval t) + 16 * eta.
Proof.
  intros q t v Fq Ft Fv Hq Hv Ht. pose proof big_big as BB. pose proof uro_pos as U. pose proof eta_pos as E0. pose proof eta_u as EU. pose proof eta_1 as E1.
  destruct (mulv_err q v Fq Fv Hq ltac:(lra)) as (Fm & Dm). change (xapply (XF (mfromQuat q) t) v) with (vadd (mmulv (mfromQuat q) v) t).
  set (m := mmulv (mfromQuat q) v) in *. clearbody m. set (r := turned (qval q) (vval v)) in *.
  assert (Nr : vnorm r = vnorm (vval v)) by (apply turned_norm; lra). clearbody r.
  pose proof (vnorm_pos (vval v)) as V0. pose proof (vnorm_pos (vval t)) as T0. pose proof (vnorm_dist (vval m) r) as Nm. pose proof (vnorm_add (vval m) (vval t)) as Na.
  set (V := vnorm (vval v)) in *. set (T := vnorm (vval t)) in *.
  assert (UV : 0 <= u * V) by (apply Rmult_le_pos; lra). assert (UT : 0 <= u * T) by (apply Rmult_le_pos; lra).
  assert (UUV : u * V <= V / 1000000) by (unfold Rdiv; rewrite (Rmult_comm V); apply Rmult_le_compat_r; [exact V0|rewrite uro_val; lra]).
  destruct (vadd_err m t Fm Ft ltac:(lra)) as (Fa & Da). split; [exact Fa|].
  eapply Rle_trans; [apply (vdist_triangle _ (vadd (vval m) (vval t)))|]. change (rplus r (vval t)) with (vadd r (vval t)).
  pose proof (vdist_add (vval m) (vval t) r (vval t)) as D2. rewrite vdist_self in D2.
  assert (UN : u * vnorm (vadd (vval m) (vval t)) <= u * (V + T) + u * V / 1000 + eta).
  { apply Rle_trans with (u * (V + 54 * u * V + 12 * eta + T)); [apply Rmult_le_compat_l; lra|].
    assert (u * (54 * u * V) <= u * V / 1000).
    { replace (u * (54 * u * V)) with ((u * V) * (54 * u)) by ring. unfold Rdiv. apply Rmult_le_compat_l; [exact UV|]. rewrite uro_val. lra. }
    assert (u * (12 * eta) <= eta) by (rewrite uro_val; lra). lra. }
  lra.
Qed.
End P.

(** ** The exact pose of a chain of near-unit links *)
Local Notation dl := (/ IZR (2 ^ 20)).
Lemma dl_val : dl = / 1048576. Proof. reflexivity. Qed.
Lemma bernoulli : forall n, 1 - INR n * dl <= (1 - dl) ^ n.
Proof.
  rewrite dl_val. induction n as [|n IH]; [cbn; lra|]. rewrite S_INR. cbn [pow]. pose proof (pos_INR n) as P.
  assert (Q : (1 - / 1048576) * (1 - INR n * / 1048576) <= (1 - / 1048576) * (1 - / 1048576) ^ n) by (apply Rmult_le_compat_l; lra). lra.
Qed.
Lemma climb_bounds : forall L (ds : list (storage RS string)), 0 <= L ->
  Forall (fun d => 1 - dl <= qnorm (st_rot d) <= 1 + dl /\ vnorm (st_trans d) <= L) ds ->
  let n := List.length ds in let e := climb_pose ds in
  (1 - dl) ^ n <= qnorm (fst e) <= (1 + dl) ^ n /\ vnorm (snd e) <= (1 + dl) ^ n * (1 + dl) ^ n * (INR n * L).
Proof.
  intros L ds L0. induction ds as [|d ds IH] using rev_ind; intros H; cbv zeta.
  - cbn [List.length climb_pose fold_left pow INR pose_id fst snd]. rewrite qnorm_id, vnorm_zero. lra.
  - apply Forall_app in H as (H & H1). inversion H1 as [|? ? (Hq & Hv) _]; subst. destruct (IH H) as (Q & V). clear IH H H1.
    unfold climb_pose in *. rewrite fold_left_app. cbn [fold_left]. set (e := fold_left _ ds pose_id) in *. clearbody e.
    rewrite app_length. cbn [List.length]. rewrite Nat.add_1_r. set (n := List.length ds) in *. clearbody n.
    unfold pose_mul, pose_of. cbn [fst snd]. rewrite qnorm_mul. pose proof (pos_INR n) as N0. cbn [pow]. rewrite S_INR.
    assert (P1 : 0 <= (1 - dl) ^ n) by (apply pow_le; rewrite dl_val; lra). assert (P2 : 1 <= (1 + dl) ^ n) by (apply pow_R1_Rle; rewrite dl_val; lra).
    rewrite dl_val in *. set (k := 1 + / 1048576) in *. assert (K : k = 1 + / 1048576) by reflexivity. clearbody k. set (A := k ^ n) in *. clearbody A. set (B := (1 - / 1048576) ^ n) in *. clearbody B.
    split; [split; [apply Rmult_le_compat; lra|apply Rmult_le_compat; lra]|].
    eapply Rle_trans; [apply vnorm_add|]. rewrite vnorm_rotate.
    set (q := qnorm (st_rot d)) in *. pose proof (vnorm_pos (snd e)) as W0. set (W := vnorm (snd e)) in *. set (V2 := vnorm (st_trans d)) in *. clearbody q W V2.
    assert (X1 : q * q * W <= k * k * (A * A * (INR n * L))) by (apply Rmult_le_compat; [nra|exact W0|nra|exact V]).
    assert (X2 : L <= (k * A) * (k * A) * L). { rewrite <- (Rmult_1_l L) at 1. apply Rmult_le_compat_r; [exact L0|]. assert (1 <= k * A) by nra. nra. }
    replace (k * A * (k * A) * ((INR n + 1) * L)) with (k * k * (A * A * (INR n * L)) + (k * A) * (k * A) * L) by ring. lra.
Qed.

Section E.
Context {lm : libm}.
Lemma lookup_bounds : forall (s : core (F64 lm)) tgt src t msg (L : R),
  reachable s -> tgt <> src -> lookupTransform s tgt src t = Ok msg ->
  (forall ds c, climbs s (tm_stamp msg) src ds c \/ climbs s (tm_stamp msg) tgt ds c -> Forall (link_near L) ds) ->
  / IZR (2 ^ 900) <= L <= IZR (2 ^ 979) ->
  exists ds dt c, climbs s (tm_stamp msg) src ds c /\ climbs s (tm_stamp msg) tgt dt c /\
    let M := INR (S (List.length ds + List.length dt)) in
    let e := pose_mul (pose_inv (climb_pose (map exact_link dt))) (climb_pose (map exact_link ds)) in
    qfinite (tm_rot msg) /\ vfinite (tm_trans msg) /\ 1 <= M <= 2001 /\ 998 / 1000 <= qnorm (fst e) <= 103 / 100 /\ 997 / 1000 <= qnorm (qval (tm_rot msg)) <= 2 /\
    qdist (qval (tm_rot msg)) (fst e) <= 2122 / 100 * (M * u) /\ vdist (vval (tm_trans msg)) (snd e) <= 1293 / 10 * (M * M * u * L) /\ vnorm (vval (tm_trans msg)) <= 12 / 10 * (M * L).
Proof.
  intros s tgt src t msg L R Ne H F (HL1 & HL2).
  assert (L0 : 0 < L) by (eapply Rlt_le_trans; [|exact HL1]; apply Rinv_0_lt_compat, IZR_lt; reflexivity).
  set (k := 1 + dl) in *.
  assert (K1 : 0 <= dl) by (rewrite dl_val; lra).
  assert (Kp : forall n, INR n <= 8000 -> 1 <= k ^ n <= 1 + 1 / 100).
  { intros n Hn. pose proof (pos_INR n). split; [apply pow_R1_Rle; unfold k; lra|]. unfold k. eapply Rle_trans; [apply pow_near1; [exact K1|]|]; rewrite dl_val; lra. }
  assert (M8 : INR (8 * MAX_GRAPH_DEPTH) = 8000) by (rewrite mult_INR, max_depth; cbn; lra).
  assert (W : forall ds : list (storage (F64 lm) string), Forall (link_near L) ds -> Forall (link_ok k L) ds).
  { intros ds. apply Forall_impl. intros d (A1 & A2 & (_ & A3) & A4). split; [exact A1|]. split; [exact A2|]. split; [exact A3|exact A4]. }
  destruct (lookup_rounding lm s tgt src t msg k L R Ne H) as (ds & dt & c & Cs & Ct & Ls & Lt & Fq & Ft & Dq & Dv).
  - intros ds c C. apply W, (F ds c C).
  - unfold k; lra.
  - exact HL1.
  - destruct (Kp (8 * MAX_GRAPH_DEPTH)%nat ltac:(lra)) as (P1 & P2).
    apply Rle_trans with (2 * IZR (2 ^ 979)); [apply Rmult_le_compat; lra|]. rewrite <- mult_IZR. apply IZR_le. intros C; discriminate C.
  - exists ds, dt, c. split; [exact Cs|]. split; [exact Ct|]. cbv zeta in *. pose proof uro_pos as U0. pose proof max_depth as MD.
    apply le_INR in Ls, Lt. rewrite MD in Ls, Lt. pose proof (pos_INR (List.length ds)) as Ns0. pose proof (pos_INR (List.length dt)) as Nt0.
    assert (Ex : forall l : list (storage (F64 lm) string), Forall (link_near L) l -> Forall (fun d => 1 - dl <= qnorm (st_rot d) <= 1 + dl /\ vnorm (st_trans d) <= L) (map exact_link l)).
    { intros l Fl. apply Forall_map. revert Fl. apply Forall_impl. intros d (_ & _ & A3 & A4). split; [exact A3|exact A4]. }
    destruct (climb_bounds L _ ltac:(lra) (Ex _ (F ds c (or_introl Cs)))) as (Qs & Vs). destruct (climb_bounds L _ ltac:(lra) (Ex _ (F dt c (or_intror Ct)))) as (Qt & Vt).
    rewrite map_length in Qs, Vs, Qt, Vt. set (es := climb_pose (map exact_link ds)) in *. set (et := climb_pose (map exact_link dt)) in *. clearbody es et.
    clear F W Ex Cs Ct H R. set (n := List.length ds) in *. set (m := List.length dt) in *. clearbody n m.
    set (N := (n + m)%nat) in *. assert (HN : INR N = INR n + INR m) by apply plus_INR.
    assert (SN : INR (S N) = INR N + 1) by apply S_INR. fold k in Qs, Vs, Qt, Vt.
    set (e := pose_mul (pose_inv et) es) in *.
    assert (Qe : 998 / 1000 <= qnorm (fst e) <= 103 / 100).
    { unfold e, pose_mul, pose_inv. cbn [fst snd]. rewrite qnorm_mul, qnorm_inv. pose proof (bernoulli n) as B1. pose proof (bernoulli m) as B2. rewrite dl_val in B1, B2. rewrite dl_val in Qs, Qt.
      destruct (Kp n ltac:(lra)) as (_ & P1). destruct (Kp m ltac:(lra)) as (_ & P2).
      destruct Qs as (Q1 & Q2), Qt as (Q3 & Q4). set (a := qnorm (fst es)) in *. set (b := qnorm (fst et)) in *. clearbody a b. split; [|apply Rle_trans with ((1 + 1 / 100) * (1 + 1 / 100)); [apply Rmult_le_compat; try lra|lra]].
      assert (1 - 1 / 1024 <= a) by lra. assert (1 - 1 / 1024 <= b) by lra. nra. }
    assert (Ve : vnorm (snd e) <= 102 / 100 * (INR N * L)).
    { unfold e, pose_mul, pose_inv. cbn [fst snd]. eapply Rle_trans; [apply vnorm_add|]. rewrite !vnorm_rotate, vnorm_neg, qnorm_inv.
      destruct (Kp (2 * m)%nat ltac:(rewrite mult_INR; cbn [INR]; lra)) as (P0 & P2).
      assert (Bt : qnorm (fst et) * qnorm (fst et) <= 1 + 1 / 100).
      { eapply Rle_trans; [|exact P2]. replace (2 * m)%nat with (m + m)%nat by lia. rewrite pow_add. pose proof (qnorm_pos (fst et)). apply Rmult_le_compat; lra. }
      assert (G : forall j, INR j <= 1000 -> k ^ j * k ^ j * (INR j * L) <= (1 + 1 / 200) * (INR j * L)).
      { intros j Hj. pose proof (pos_INR j). apply Rmult_le_compat_r; [apply Rmult_le_pos; lra|]. rewrite <- pow_add. unfold k.
        eapply Rle_trans; [apply pow_near1; [exact K1|rewrite plus_INR, dl_val; lra]|]. rewrite plus_INR, dl_val. lra. }
      pose proof (G n ltac:(lra)) as Gs. pose proof (G m ltac:(lra)) as Gt. pose proof (vnorm_pos (snd es)). pose proof (vnorm_pos (snd et)). pose proof (qnorm_pos (fst et)).
      assert (0 <= INR n * L) by (apply Rmult_le_pos; lra). assert (0 <= INR m * L) by (apply Rmult_le_pos; lra).
      set (b := qnorm (fst et) * qnorm (fst et)) in *. assert (0 <= b) by (unfold b; apply Rmult_le_pos; lra). clearbody b.
      assert (b * vnorm (snd es) <= (1 + 1 / 100) * ((1 + 1 / 200) * (INR n * L))) by (apply Rmult_le_compat; lra).
      assert (b * vnorm (snd et) <= (1 + 1 / 100) * ((1 + 1 / 200) * (INR m * L))) by (apply Rmult_le_compat; lra).
      rewrite HN, Rmult_plus_distr_r. lra. }
    clearbody e. clear Qs Vs Qt Vt.
    assert (Kn : k ^ N <= 1 + 1 / 100) by (apply Kp; lra). assert (K4 : k ^ (4 * N) <= 1 + 1 / 100) by (apply Kp; rewrite mult_INR; cbn [INR]; lra).
    set (M := INR (S N)) in *. assert (M1 : 1 <= M <= 2001) by lra.
    assert (Dq' : qdist (qval (tm_rot msg)) (fst e) <= 2122 / 100 * (M * u)).
    { eapply Rle_trans; [exact Dq|]. assert (0 <= M * u) by (apply Rmult_le_pos; lra). replace (21 * M * u * k ^ N) with ((M * u) * (21 * k ^ N)) by ring. replace (2122 / 100 * (M * u)) with ((M * u) * (2122 / 100)) by ring. apply Rmult_le_compat_l; lra. }
    assert (MML : 0 <= M * M * u * L) by (repeat apply Rmult_le_pos; lra).
    assert (Dv' : vdist (vval (tm_trans msg)) (snd e) <= 1293 / 10 * (M * M * u * L)).
    { eapply Rle_trans; [exact Dv|]. replace (128 * (M * M) * u * (k ^ (4 * N) * L)) with ((M * M * u * L) * (128 * k ^ (4 * N))) by ring. rewrite (Rmult_comm (1293 / 10)). apply Rmult_le_compat_l; lra. }
    clear Dq Dv. set (q := tm_rot msg) in *. set (tr := tm_trans msg) in *. clearbody q tr.
    assert (MU : M * u <= 1 / 1000000) by (apply Rle_trans with (2001 * u); [apply Rmult_le_compat_r; lra|rewrite uro_val; lra]).
    assert (Qq : 997 / 1000 <= qnorm (qval q) <= 2).
    { pose proof (qnorm_dist (qval q) (fst e)) as D1. pose proof (qnorm_dist (fst e) (qval q)) as D2.
      assert (Sy : qdist (fst e) (qval q) = qdist (qval q) (fst e)). { generalize (fst e) (qval q). clear. intros [a b c d] [f g h i]. unfold qdist, qnorm. cbn [qx qy qz qw]. cbn [RS scar]. f_equal. ring. }
      rewrite Sy in D2. lra. }
    pose proof (vnorm_dist (vval tr) (snd e)) as Nt.
    assert (ML : INR N * L <= M * L) by (apply Rmult_le_compat_r; lra). assert (ML2 : M * L <= 2001 * L) by (apply Rmult_le_compat_r; lra).
    assert (MML2 : M * M * u * L <= M * L / 1000).
    { replace (M * M * u * L) with ((M * u) * (M * L)) by ring. unfold Rdiv. rewrite (Rmult_comm (M * L)). apply Rmult_le_compat_r; [apply Rmult_le_pos; lra|lra]. }
    assert (Tb : vnorm (vval tr) <= 12 / 10 * (M * L)) by lra.
    split; [exact Fq|]. split; [exact Ft|]. split; [exact M1|]. split; [exact Qe|]. split; [exact Qq|]. split; [exact Dq'|]. split; [exact Dv'|exact Tb].
Qed.
Theorem point_through_lookup : forall (s : core (F64 lm)) tgt src t msg (L : R) (p : vec3 (F64 lm)),
  reachable s -> tgt <> src -> lookupTransform s tgt src t = Ok msg ->
  (forall ds c, climbs s (tm_stamp msg) src ds c \/ climbs s (tm_stamp msg) tgt ds c -> Forall (link_near L) ds) ->
  / IZR (2 ^ 900) <= L <= IZR (2 ^ 979) -> vfinite p -> vnorm (vval p) <= IZR (2 ^ 1000) ->
  exists ds dt c, climbs s (tm_stamp msg) src ds c /\ climbs s (tm_stamp msg) tgt dt c /\
    let N := (List.length ds + List.length dt)%nat in
    let e := pose_mul (pose_inv (climb_pose (map exact_link dt))) (climb_pose (map exact_link ds)) in
    let out := xapply (XF (mfromQuat (tm_rot msg)) (tm_trans msg)) p in
    vfinite out /\
    vdist (vval out) (rplus (turned (fst e) (vval p)) (snd e)) <= 142 * INR (S N) * u * vnorm (vval p) + 132 * (INR (S N) * INR (S N)) * u * L.
Proof.
  intros s tgt src t msg L p R Ne H F (HL1 & HL2) Fp Hp.
  destruct (lookup_bounds s tgt src t msg L R Ne H F (conj HL1 HL2)) as (ds & dt & c & Cs & Ct & X). exists ds, dt, c. split; [exact Cs|]. split; [exact Ct|]. cbv zeta in *.
  set (N := (List.length ds + List.length dt)%nat) in *. clearbody N. set (e := pose_mul _ _) in *. clearbody e. set (M := INR (S N)) in *. clearbody M.
  destruct X as (Fq & Ft & M1 & Qe & Qq & Dq' & Dv' & Tb). set (q := tm_rot msg) in *. set (tr := tm_trans msg) in *. clearbody q tr. clear F H Cs Ct R. pose proof uro_pos as U0.
  assert (L0 : 0 < L) by (eapply Rlt_le_trans; [|exact HL1]; apply Rinv_0_lt_compat, IZR_lt; reflexivity).
  assert (MML : 0 <= M * M * u * L) by (repeat apply Rmult_le_pos; lra). pose proof (vnorm_pos (vval p)) as P0.
  assert (ML2 : M * L <= 2001 * L) by (apply Rmult_le_compat_r; lra).
    assert (B1 : 12 / 10 * (2001 * L) <= big / 8).
    { apply Rle_trans with (4096 * IZR (2 ^ 979)); [lra|]. unfold big. apply (Rmult_le_reg_l 8); [lra|]. replace (8 * (IZR (2 ^ 1023) / 8)) with (IZR (2 ^ 1023)) by field.
      rewrite <- !mult_IZR. apply IZR_le. intros C; discriminate C. }
    assert (B2 : IZR (2 ^ 1000) <= big / 8).
    { unfold big. apply (Rmult_le_reg_l 8); [lra|]. replace (8 * (IZR (2 ^ 1023) / 8)) with (IZR (2 ^ 1023)) by field. rewrite <- !mult_IZR. apply IZR_le. intros C; discriminate C. }
    destruct (apply_err q tr p Fq Ft Fp ltac:(lra) ltac:(lra) ltac:(lra)) as (Fo & Do). split; [exact Fo|].
    eapply Rle_trans; [apply (vdist_triangle _ (rplus (turned (qval q) (vval p)) (vval tr)))|].
    pose proof (vdist_add (turned (qval q) (vval p)) (vval tr) (turned (fst e) (vval p)) (snd e)) as D2. rewrite (vadd_rplus (turned (qval q) (vval p))), (vadd_rplus (turned (fst e) (vval p))) in D2.
    pose proof (turned_near (qval q) (fst e) (vval p) ltac:(lra) ltac:(lra)) as D3.
    set (P := vnorm (vval p)) in *.
    assert (D4 : 4 * qdist (qval q) (fst e) / qnorm (fst e) * P <= 851 / 10 * (M * u) * P).
    { apply Rmult_le_compat_r; [exact P0|]. apply (Rmult_le_reg_r (qnorm (fst e))); [lra|]. unfold Rdiv at 1. rewrite Rmult_assoc, Rinv_l, Rmult_1_r by lra.
      assert (0 <= M * u) by (apply Rmult_le_pos; lra). apply Rle_trans with (851 / 10 * (M * u) * (998 / 1000)); [lra|]. apply Rmult_le_compat_l; lra. }
    assert (UP : 0 <= u * P) by (apply Rmult_le_pos; lra). assert (UM : u * P <= M * u * P) by (rewrite Rmult_assoc; rewrite <- (Rmult_1_l (u * P)) at 1; apply Rmult_le_compat_r; lra).
    assert (UT : 2 * u * vnorm (vval tr) <= 24 / 10 * (M * M * u * L)).
    { apply Rle_trans with (2 * u * (12 / 10 * (M * L))); [apply Rmult_le_compat_l; lra|]. replace (M * M * u * L) with (M * (u * (M * L))) by ring.
      assert (0 <= u * (M * L)) by (apply Rmult_le_pos; [lra|apply Rmult_le_pos; lra]). assert (1 * (u * (M * L)) <= M * (u * (M * L))) by (apply Rmult_le_compat_r; lra). lra. }
    assert (UE : 16 * eta <= 1 / 10 * (M * M * u * L)).
    { pose proof (eta_L L HL1) as EL. assert (u * L <= M * M * u * L); [|lra]. replace (M * M * u * L) with (M * M * (u * L)) by ring. rewrite <- (Rmult_1_l (u * L)) at 1.
      apply Rmult_le_compat_r; [apply Rmult_le_pos; lra|nra]. }
    replace (142 * M * u * P) with (142 * (M * u * P)) by ring. replace (132 * (M * M) * u * L) with (132 * (M * M * u * L)) by ring.
    replace (56 * u * P) with (56 * (u * P)) in Do by ring. replace (851 / 10 * (M * u) * P) with (851 / 10 * (M * u * P)) in D4 by ring. lra.
Qed.
End E.
