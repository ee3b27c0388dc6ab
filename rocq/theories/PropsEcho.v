(** * Property C76: echo.py *)
From Coq Require Import ZArith Bool Reals Lra Lia List String Floats.SpecFloat.
From Verif Require Import RosTime Scalar LinearMath Cache BufferCore SpecCore Instances RealSlerp RealQuat SpecReal RealMatrix RealEuler ExampleBuffers SpecWait PyTime
  PyTimeProofs PyCore SpecPy PyCoreProofs PyBuffer SpecPyWait PyWaitProofs PropsPy Echo SpecEcho EchoProofs.
Import ListNotations.
Open Scope string_scope.
Open Scope list_scope.

(** ** The angles *)
(** The printed roll, pitch and yaw are the rotation printed as a quaternion: exactly, unless the
    cosine of the pitch is between 0 and 2^-50; and then up to 2^-49 in every matrix entry, with
    yaw 0.  (Over the reals.) *)
Theorem C76_angles_are_the_rotation :
  forall q : quat RS, (/ 2 ^ 50 <= length2 q)%R ->
  ((/ 2 ^ 50 < cos_pitch q \/ cos_pitch q = 0)%R -> of_rpy (echo_rpy q) = mfromQuat q) /\
  near (/ 2 ^ 49) (of_rpy (echo_rpy q)) (mfromQuat q) /\
  ((cos_pitch q <= / 2 ^ 50)%R -> snd (echo_rpy q) = 0%R).
Proof.
  intros q. assert (E : @EPS RS = (/ 2 ^ 50)%R).
  { unfold EPS. cbn [RS scar slit]. replace (IZR (2 ^ 50)) with (2 ^ 50)%R by (rewrite pow_IZR; f_equal; reflexivity). unfold Rdiv. ring. }
  rewrite <- E. intros H.
  assert (P : (0 <= cos_pitch q)%R) by apply sqrt_pos.
  assert (D : (2 * @EPS RS = / 2 ^ 49)%R) by (rewrite E; field).
  split; [|split].
  - intros [K|K]; [apply echo_angles_away; assumption|]. pose proof EPS_pos. destruct (echo_angles_lock q H) as [A _]; [lra|]. apply near_0. rewrite K, Rmult_0_r in A. exact A.
  - destruct (Rlt_le_dec (@EPS RS) (cos_pitch q)) as [K|K].
    + rewrite echo_angles_away by assumption. apply near_refl. rewrite <- D. pose proof EPS_pos. lra.
    + apply (near_le (2 * cos_pitch q)); [rewrite <- D; lra|]. apply echo_angles_lock; assumption.
  - intros K. apply echo_angles_lock; assumption.
Qed.
Print Assumptions C76_angles_are_the_rotation.
Theorem C76_angle_ranges :
  forall q : quat RS, let '(roll, pitch, yaw) := echo_rpy q in (- PI < roll <= PI /\ - (PI / 2) <= pitch <= PI / 2 /\ - PI < yaw <= PI)%R.
Proof. exact echo_ranges. Qed.
Print Assumptions C76_angle_ranges.
(** Angles that went in by Quaternion::setRPY come out. *)
Theorem C76_setRPY_then_echo :
  forall r p y : R, (- PI < r <= PI)%R -> (- (PI / 2) < p < PI / 2)%R -> (- PI < y <= PI)%R -> (/ 2 ^ 50 < cos p)%R ->
  echo_rpy (@qfromRPY RS r p y) = (r, p, y).
Proof.
  intros r p y Hr Hp Hy K. apply echo_of_rpy; try assumption. unfold EPS. cbn [RS scar slit].
  replace (IZR (2 ^ 50)) with (2 ^ 50)%R by (rewrite pow_IZR; f_equal; reflexivity). unfold Rdiv. rewrite Rmult_1_l. exact K.
Qed.
Print Assumptions C76_setRPY_then_echo.
(** The same three angles as Matrix3x3::getEulerYPR and tf2::getEulerYPR, away from the poles. *)
Theorem C76_same_angles_as_tf2 :
  forall q : quat RS, (/ 2 ^ 50 <= length2 q)%R -> (- (99999 / 100000) < sin_pitch q < 99999 / 100000)%R ->
  let '(roll, pitch, yaw) := echo_rpy q in mgetEulerYPR (mfromQuat q) 1 = (yaw, pitch, roll) /\ ugetEulerYPR q = (yaw, pitch, roll).
Proof.
  intros q L Hp. assert (N : nonzero q). { unfold nonzero, length2 in *. cbn [RS scar] in *. assert (0 < / 2 ^ 50)%R by (apply Rinv_0_lt_compat, pow_lt; lra). lra. }
  destruct (C76_angles_are_the_rotation q L) as [A _]. pose proof (C76_angle_ranges q) as Rg.
  assert (C : (/ 2 ^ 50 < cos_pitch q)%R).
  { unfold cos_pitch. apply Rlt_le_trans with (r2 := (1 / 1000)%R).
    - apply Rlt_trans with (r2 := (/ 2 ^ 10)%R); [apply Rinv_lt_contravar; [apply Rmult_lt_0_compat; apply pow_lt; lra|apply Rlt_pow; [lra|lia]]|cbn [pow]; lra].
    - rewrite <- (sqrt_square (1 / 1000)) by lra. apply sqrt_le_1_alt. nra. }
  specialize (A (or_introl C)). destruct (echo_rpy q) as [[r p] y] eqn:E. unfold of_rpy in A.
  assert (X : mgetEulerYPR (mfromQuat q) 1 = (y, p, r)).
  { rewrite <- A. apply mgetEuler_angles; try tauto.
    assert (Z : (sin p = sin_pitch q)%R).
    { pose proof (f_equal (fun m => vx (m2 m)) A) as G. cbn beta in G. rewrite ypr_corner in G. destruct (mfromQuat_V9 q N) as (a & b & c & d & e & f & g & h & i & F & _ & Eg). rewrite F in G. cbn [V9 m2 vx] in G. unfold V9 in G. cbn [m2 vx] in G. lra. }
    destruct Rg as (_ & [G1 G2] & _). split.
    - destruct G1 as [G1|G1]; [exact G1|]. rewrite <- G1, sin_neg, sin_PI2 in Z. lra.
    - destruct G2 as [G2|G2]; [exact G2|]. rewrite G2, sin_PI2 in Z. lra. }
  split; [exact X|]. rewrite ugetEuler_regular by assumption. exact X.
Qed.
Print Assumptions C76_same_angles_as_tf2.
Example C76_angles_example :
  (/ 2 ^ 50 <= length2 (@Q4 RS 1 1 1 1))%R /\ sin_pitch (@Q4 RS 1 1 1 1) = 0%R /\
  cos_pitch (@Q4 RS 0 1 0 1) = 0%R /\ of_rpy (echo_rpy (@Q4 RS 0 1 0 1)) = Ry (PI / 2) /\
  (/ 2 ^ 50 < cos 1)%R.
Proof.
  assert (S50 : (/ 2 ^ 50 < / 2)%R) by (apply Rinv_lt_contravar; [apply Rmult_lt_0_compat; [lra|apply pow_lt; lra]|rewrite <- (pow_1 2) at 1; apply Rlt_pow; [lra|lia]]).
  assert (C0 : cos_pitch (@Q4 RS 0 1 0 1) = 0%R) by (unfold cos_pitch, sin_pitch; cbn [qx qy qz qw RS scar]; transitivity (sqrt 0); [f_equal; field|apply sqrt_0]).
  split; [unfold length2; cbn [qx qy qz qw]; lra|]. split; [unfold sin_pitch; cbn [qx qy qz qw]; field|]. split; [exact C0|]. split.
  - destruct (C76_angles_are_the_rotation (@Q4 RS 0 1 0 1)) as [A _]; [unfold length2; cbn [qx qy qz qw]; lra|]. rewrite A by (right; exact C0).
    rewrite mfromQuat_entries by lra. unfold V9, Ry. rewrite cos_PI2, sin_PI2. apply near_0. unfold near. cbn [RS scar].
    assert (Z : forall x y : R, x = y -> (Rabs (x - y) <= 0)%R) by (intros x ? <-; replace (x - x)%R with 0%R by ring; rewrite Rabs_R0; lra).
    repeat match goal with |- _ /\ _ => split end; apply Z; field.
  - assert (cos (PI / 3) < cos 1)%R by (apply cos_decreasing_1; pose proof PI2_3_2; pose proof PI_4; lra). rewrite cos_PI3 in *. lra.
Qed.
(** A quaternion shorter than 2^-25 is taken for "no rotation", though it stands for one. *)
Theorem C76_short_quaternion_refuted : exists q : quat RS, nonzero q /\ echo_rpy q = (0%R, 0%R, 0%R) /\ of_rpy (echo_rpy q) <> mfromQuat q.
Proof.
  exists (@Q4 RS (/ 2 ^ 30) 0 0 0)%R. assert (P : (0 < / 2 ^ 30)%R) by (apply Rinv_0_lt_compat, pow_lt; lra).
  assert (E : echo_rpy (@Q4 RS (/ 2 ^ 30) 0 0 0)%R = (0%R, 0%R, 0%R)).
  { apply echo_short. unfold length2, EPS. cbn [qx qy qz qw RS scar slit]. replace (IZR (2 ^ 50)) with (2 ^ 50)%R by (rewrite pow_IZR; f_equal; reflexivity).
    unfold Rdiv. rewrite Rmult_1_l. replace (/ 2 ^ 30 * / 2 ^ 30 + 0 * 0 + 0 * 0 + 0 * 0)%R with (/ 2 ^ 60)%R by (field).
    apply Rinv_lt_contravar; [apply Rmult_lt_0_compat; apply pow_lt; lra|apply Rlt_pow; [lra|lia]]. }
  split; [unfold nonzero; cbn [qx qy qz qw RS scar]; nra|]. split; [exact E|]. rewrite E. unfold of_rpy. intros X.
  apply (f_equal (fun m => vy (m1 m))) in X. rewrite ypr_entries, mfromQuat_entries in X by nra. unfold V9 in X. cbn [m1 vy] in X. rewrite sin_0, cos_0 in X.
  replace ((0 * 0 - / 2 ^ 30 * / 2 ^ 30 + 0 * 0 - 0 * 0) / (/ 2 ^ 30 * / 2 ^ 30 + 0 * 0 + 0 * 0 + 0 * 0))%R with (-1)%R in X by (field). lra.
Qed.
Print Assumptions C76_short_quaternion_refuted.

(** ** The attempts *)
Open Scope Z_scope.
Section Attempts.
Context {S : Scalar} (Time_of Duration_of : f64 -> option Z) (args : echo_args) (w : pworld S).
Notation attempt := (lookup_tick Time_of Duration_of args w).
Notation session := (echo_run Time_of Duration_of args w).

Lemma truthy_given : forall x, (truthy x = true -> exists v, given x v) /\ (truthy x = false -> not_given x).
Proof.
  intros [v|]; unfold truthy; split; intros H; try discriminate.
  - apply negb_true_iff in H. exists v. split; [reflexivity|exact H].
  - apply negb_false_iff in H. intros v' E. injection E as <-. exact H.
Qed.
Lemma given_truthy : forall x v, given x v -> truthy x = true.
Proof. intros x v [-> H]. unfold truthy. rewrite H. reflexivity. Qed.
Lemma not_given_truthy : forall x, not_given x -> truthy x = false.
Proof. intros [v|] H; [|reflexivity]. unfold truthy. rewrite (H v eq_refl). reflexivity. Qed.
Lemma lookup_time_iff : forall now t, lookup_time Time_of Duration_of args now = PyOk t <-> time_wanted Time_of Duration_of args now t.
Proof.
  intros now t. split.
  - unfold lookup_time. destruct (truthy (e_time args)) eqn:T.
    + destruct (proj1 (truthy_given _) T) as [x G]. pose proof G as [E _]. rewrite E. destruct (Time_of x) eqn:X; [|discriminate]. intros H. injection H as <-. eapply wants_fixed; eassumption.
    + pose proof (proj2 (truthy_given _) T) as N. destruct (truthy (e_offset args)) eqn:O.
      * destruct (proj1 (truthy_given _) O) as [x G]. pose proof G as [E _]. rewrite E. destruct (Duration_of x) eqn:X; [|discriminate].
        destruct (Z.ltb_spec (now + z) 0); [discriminate|]. intros H'. injection H' as <-. eapply wants_offset; eassumption.
      * intros H. injection H as <-. apply wants_latest; [exact N|]. apply (proj2 (truthy_given _) O).
  - intros H. unfold lookup_time. destruct H as [x t G X|x d N G X P|N N'].
    + rewrite (given_truthy _ _ G). destruct G as [-> _]. rewrite X. reflexivity.
    + rewrite (not_given_truthy _ N), (given_truthy _ _ G). destruct G as [-> _]. rewrite X. destruct (Z.ltb_spec (now + d) 0); [lia|reflexivity].
    + rewrite (not_given_truthy _ N), (not_given_truthy _ N'). reflexivity.
Qed.
Lemma limit_iff : forall n, args_ok args ->
  (match e_limit args with Some l => if l =? 0 then false else l <? n | None => false end) = false <-> within_limit args n.
Proof.
  intros n A. unfold within_limit. destruct (e_limit args) as [l|] eqn:E.
  - specialize (A l E). destruct (Z.eqb_spec l 0); [lia|]. destruct (Z.ltb_spec l n); split; intros H'; try discriminate; try reflexivity.
    + specialize (H' l eq_refl). lia.
    + intros l' X. injection X as <-. lia.
  - split; [intros _ l X; discriminate|reflexivity].
Qed.

(** One attempt within the limit: the time asked for is the wanted one; it prints exactly what the
    buffer's lookup returns (frame_id the first argument, child_frame_id the second); it logs and
    goes on exactly for LookupException and ExtrapolationException; it ends the timer for the
    other exceptions of the lookup. *)
Theorem C76_one_attempt :
  python_world w -> args_ok args -> forall i n t, within_limit args n -> time_wanted Time_of Duration_of args (p_now (w i)) t -> 0 <= t < year_2038 ->
  (forall now ts a, attempt i n = Prints now ts a <->
     asks args t (p_core (w (i + 2)%nat)) = PyOk ts /\ now = p_now (w i) /\ a = echo_rpy (tm_rot ts)) /\
  (forall c e, attempt i n = Logs c e <-> asks args t (p_core (w (i + 2)%nat)) = PyRaise c e /\ (c = LookupException \/ c = ExtrapolationException)) /\
  (forall r, attempt i n = Raises r <-> exists c e, r = PyRaise c e /\ asks args t (p_core (w (i + 2)%nat)) = PyRaise c e /\
     c <> LookupException /\ c <> ExtrapolationException) /\
  attempt i n <> Finishes.
Proof.
  intros P A i n t L T B.
  assert (E : attempt i n = match asks args t (p_core (w (i + 2)%nat)) with
    | PyOk ts => Prints (p_now (w i)) ts (echo_rpy (tm_rot ts))
    | PyRaise LookupException e => Logs LookupException e
    | PyRaise ExtrapolationException e => Logs ExtrapolationException e
    | r => Raises (failed r) end /\ returns_or_raises (asks args t (p_core (w (i + 2)%nat)))).
  { unfold lookup_tick. rewrite (proj2 (limit_iff n A) L), (proj2 (lookup_time_iff _ _) T).
    destruct (within_zero w (Simple (e_source args) (e_target args) t) P B 0 (i + 1)) as (b & Z & _).
    pose proof (lookup_within_is _ _ _ _ _ _ _ _ Z) as X. unfold lookup_within in X. rewrite X. clear X Z.
    replace (i + 1 + 1)%nat with (i + 2)%nat by lia. unfold asks.
    pose proof (ask_total (Simple (e_source args) (e_target args) t) (p_core (w (i + 2)%nat)) (proj1 (P (i + 2)%nat)) B) as Q.
    split; [|exact Q]. destruct Q as [[a ->]|(c & e & -> & _)]; [reflexivity|]. cbn [failed pbind]. destruct c; reflexivity. }
  destruct E as [-> Q]. destruct (asks args t (p_core (w (i + 2)%nat))) as [ts|c e| | |]; try (exfalso; destruct Q as [[? Q]|(? & ? & Q & _)]; discriminate).
  - split; [|split; [|split]].
    + intros now m a. split; intros H; [injection H as <- <- <-; auto|destruct H as (H & -> & ->); injection H as ->; reflexivity].
    + intros c e. split; [discriminate|intros [H _]; discriminate].
    + intros r. split; [discriminate|intros (c & e & _ & H & _); discriminate].
    + discriminate.
  - split; [|split; [|split]].
    + intros now m a. split; intros H; [destruct c; discriminate|destruct H as (H & _); discriminate].
    + intros c' e'. split.
      * intros H. destruct c; try discriminate; injection H as <- <-; auto.
      * intros [H [->| ->]]; injection H as -> ->; reflexivity.
    + intros r. cbn [failed pbind]. split.
      * intros H. exists c, e. destruct c; try discriminate; injection H as <-; repeat split; discriminate.
      * intros (c' & e' & -> & H & N1 & N2). injection H as <- <-. destruct c; try contradiction; reflexivity.
    + destruct c; discriminate.
Qed.
(** What is printed in terms of the C++ buffer: its lookup at a time within 119 ns of the wanted one. *)
Theorem C76_prints_the_buffers_transform :
  python_world w -> args_ok args -> forall i n t now ts a, within_limit args n -> time_wanted Time_of Duration_of args (p_now (w i)) t -> 0 <= t < year_2038 ->
  attempt i n = Prints now ts a ->
  tm_frame ts = e_source args /\ tm_child ts = e_target args /\
  exists t', Z.abs (t' - t) <= 119 /\ (t < 2 ^ 23 * 10 ^ 9 -> t' = t) /\ lookupTransform (p_core (w (i + 2)%nat)) (e_source args) (e_target args) t' = Ok ts.
Proof.
  intros P A i n t now ts a L T B H. apply (C76_one_attempt P A i n t L T B) in H. destruct H as (H & _). unfold asks, ask in H.
  destruct (C70_lookup_is_the_cpp_lookup S (p_core (w (i + 2)%nat)) (e_source args) (e_target args) t (proj1 (P (i + 2)%nat)) B) as (t' & E & D & _ & X & _).
  apply X in H. destruct (buffer_soon _ (proj1 (P (i + 2)%nat))) as (R & _).
  destruct (LookupTheorems.lookup_header _ _ _ _ _ R H) as (F1 & F2 & _). split; [exact F1|]. split; [exact F2|]. exists t'. split; [exact D|]. split; [|exact H].
  intros Y. rewrite trip_exact in E by lia. injection E as ->. reflexivity.
Qed.

(** ** The session: the attempts of the timer *)
Definition goes_on (o : tick S) : Prop := match o with Prints _ _ _ | Logs _ _ => True | _ => False end.
Lemma run_nth : forall starts n k o, nth_error (session starts n) k = Some o ->
  exists i, nth_error starts k = Some i /\ o = attempt i (n + Z.of_nat k + 1) /\
  (forall j o', (j < k)%nat -> nth_error (session starts n) j = Some o' -> goes_on o').
Proof.
  induction starts as [|i starts IH]; intros n [|k] o H; cbn [echo_run nth_error] in *; try discriminate.
  - injection H as <-. exists i. split; [reflexivity|]. split; [f_equal; lia|]. intros j o' L. lia.
  - destruct (attempt i (n + 1)) eqn:E; [| |destruct k; discriminate|destruct k; discriminate];
      (destruct (IH _ _ _ H) as (i' & A & B & C); exists i'; split; [exact A|]; split; [rewrite B; f_equal; lia|];
       intros [|j] o' L X; [injection X as <-; exact I|cbn [nth_error] in X; apply (C j o'); [lia|exact X]]).
Qed.
Lemma run_reaches : forall starts n k i, nth_error starts k = Some i -> (forall j o', (j < k)%nat -> nth_error (session starts n) j = Some o' -> goes_on o') ->
  nth_error (session starts n) k = Some (attempt i (n + Z.of_nat k + 1)).
Proof.
  induction starts as [|i0 starts IH]; intros n [|k] i H G; cbn [echo_run nth_error] in *; try discriminate.
  - injection H as <-. f_equal. f_equal. lia.
  - assert (G0 := G 0%nat _ ltac:(lia) eq_refl).
    destruct (attempt i0 (n + 1)) eqn:E; [| |contradiction|contradiction];
      (rewrite (IH (n + 1) k i H); [f_equal; f_equal; lia|]; intros j o' L X; apply (G (Datatypes.S j) o'); [lia|exact X]).
Qed.

(** Attempt [k] of a session happens exactly if all before it went on; it is the attempt made at
    the k-th call of the timer, numbered k+1. *)
Theorem C76_session :
  forall starts k o, nth_error (session starts 0) k = Some o <->
  (exists i, nth_error starts k = Some i /\ o = attempt i (Z.of_nat k + 1)) /\
  (forall j o', (j < k)%nat -> nth_error (session starts 0) j = Some o' -> goes_on o').
Proof.
  intros starts k o. split.
  - intros H. destruct (run_nth starts 0 k o H) as (i & A & B & C). split; [|exact C]. exists i. split; [exact A|]. rewrite B. f_equal.
  - intros [(i & A & ->) G]. rewrite (run_reaches starts 0 k i A G). f_equal.
Qed.
(** With -l n (n > 0): attempt n+1, if reached, finishes; so at most n transforms or errors are
    printed and an unlimited session never finishes by itself. *)
Theorem C76_limit :
  args_ok args -> forall starts k o, nth_error (session starts 0) k = Some o ->
  (o = Finishes <-> exists l, e_limit args = Some l /\ Z.of_nat k = l).
Proof.
  intros A starts k o H. destruct (run_nth starts 0 k o H) as (i & _ & -> & G). rewrite Z.add_0_l.
  assert (Lim : forall j, (exists l, e_limit args = Some l /\ l < j) <-> ~ within_limit args j).
  { intros j. split.
    - intros (l & E & L) W. specialize (W l E (A l E)). lia.
    - intros W. unfold within_limit in W. destruct (e_limit args) as [l|] eqn:E; [|exfalso; apply W; intros l X; discriminate].
      exists l. split; [reflexivity|]. destruct (Z.lt_ge_cases l j); [assumption|]. exfalso. apply W. intros l' X. injection X as <-. lia. }
  assert (F : forall j i', attempt i' j = Finishes <-> exists l, e_limit args = Some l /\ l < j).
  { intros j i'. rewrite Lim. rewrite <- (limit_iff j A). unfold lookup_tick. destruct (match e_limit args with Some l => _ | None => false end); split; intros X; try reflexivity; try (exfalso; apply X; reflexivity); try discriminate.
    exfalso. revert X. destruct (lookup_time _ _ _ _); try discriminate. destruct (py_lookup_wait _ _ _ _ _ _ _) as [[?| |[|[]| | |]]|]; discriminate. }
  rewrite F. split.
  - intros (l & E & L). exists l. split; [exact E|]. destruct (Z.eq_dec (Z.of_nat k) l) as [|N]; [assumption|exfalso].
    (* the attempt before would have finished *)
    destruct k as [|k]; [specialize (A l E); lia|].
    destruct (nth_error (session starts 0) k) as [o'|] eqn:X.
    + pose proof (G k o' ltac:(lia) X) as Go. destruct (run_nth starts 0 k o' X) as (i' & _ & Eo & _). rewrite Z.add_0_l in Eo.
      assert (Y : attempt i' (Z.of_nat k + 1) = Finishes) by (apply F; exists l; split; [exact E|lia]). rewrite Eo, Y in Go. exact Go.
    + apply nth_error_None in X. assert (nth_error (session starts 0) (Datatypes.S k) <> None) by (rewrite H; discriminate). apply nth_error_Some in H0. lia.
  - intros (l & E & <-). exists (Z.of_nat k). split; [exact E|lia].
Qed.
End Attempts.
Print Assumptions C76_one_attempt.
Print Assumptions C76_prints_the_buffers_transform.
Print Assumptions C76_session.
Print Assumptions C76_limit.

(** ** Examples: two trees, a -> b and c -> d, joined by b -> c at instant 10 *)
Definition trees : list (@py_op D64) := [PSet (pm "a" "b" 1600000000000000000 1) "x"; PSet (pm "c" "d" 1600000000000000000 2) "x"].
Definition joined : list (@py_op D64) := trees ++ [PSet (pm "b" "c" 1600000000000000000 3) "x"].
Definition buffer_of (ops : list (@py_op D64)) : core D64 := match py_run (init_core (10 * 10 ^ 9)) ops with Some s => s | None => init_core 0 end.
Definition joining : pworld D64 := fun k => mkPinstant (1600000000500000000 + Z.of_nat k) (if (k <? 10)%nat then buffer_of trees else buffer_of joined) None.
Lemma below_2038 : forall ops, forallb (fun o => match o with PSet m _ | PSetStatic m _ => (0 <=? tm_stamp m) && (tm_stamp m <? year_2038) | PClear => true end) ops = true -> @stamps_below D64 year_2038 ops.
Proof.
  intros ops H. rewrite forallb_forall in H. apply Forall_forall. intros o Ho. specialize (H o Ho).
  destruct o; try exact I; apply andb_prop in H; destruct H as [A B]; apply Z.leb_le in A; apply Z.ltb_lt in B; auto.
Qed.
Lemma buffer_of_ok : forall ops, @stamps_below D64 year_2038 ops -> py_buffer year_2038 (buffer_of ops).
Proof.
  intros ops B. destruct (C70_python_buffer_is_the_cpp_buffer D64 (10 * 10 ^ 9) ops ltac:(unfold dur_bound; lia) B) as (s & _ & E & _).
  unfold buffer_of. rewrite E. exists (10 * 10 ^ 9), ops. split; [unfold dur_bound; lia|]. auto.
Qed.
Lemma joining_ok : python_world joining.
Proof.
  intros k. unfold joining. cbn [p_core p_now]. split; [|lia]. destruct (k <? 10)%nat; apply buffer_of_ok, below_2038; vmr.
Qed.
Definition plain_args (s t : string) (l : option Z) : echo_args := mkEchoArgs s t None None None l.
Definition kind (o : tick D64) : string :=
  match o with
  | Prints _ _ _ => "prints" | Logs LookupException _ => "logs Lookup" | Logs ExtrapolationException _ => "logs Extrapolation" | Logs _ _ => "logs ?"
  | Finishes => "finishes" | Raises (PyRaise ConnectivityException _) => "raises Connectivity" | Raises (PyRaise InvalidArgumentException _) => "raises InvalidArgument"
  | Raises PyTypeError => "raises TypeError" | Raises _ => "raises ?" end.
Definition kinds (args : echo_args) (starts : list nat) : list string := map kind (echo_run (fun _ => None) (fun _ => None) args joining starts 0).
Example C76_example :
  python_world joining /\ args_ok (plain_args "a" "b" (Some 2)) /\ within_limit (plain_args "a" "b" (Some 2)) 2 /\
  (forall now, time_wanted (fun _ => None) (fun _ => None) (plain_args "a" "b" (Some 2)) now 0) /\
  kinds (plain_args "a" "b" (Some 2)) [0; 5; 20; 30]%nat = ["prints"; "prints"; "finishes"] /\
  kinds (plain_args "a" "nowhere" None) [0; 5; 20]%nat = ["logs Lookup"; "logs Lookup"; "logs Lookup"] /\
  kinds (plain_args "a" "d" None) [10; 20]%nat = ["prints"; "prints"].
Proof.
  split; [exact joining_ok|]. split; [intros l E; injection E as <-; lia|]. split; [intros l E _; injection E as <-; lia|].
  split; [intros now; apply wants_latest; intros v E; discriminate|]. split; [vmr|]. split; vmr.
Qed.
(** "Echo" until stopped: not if the two frames are for a moment in different trees. *)
Theorem C76_keeps_trying_refuted :
  python_world joining /\ kinds (plain_args "a" "d" None) [0; 20; 40]%nat = ["raises Connectivity"] /\
  (forall k, (10 <= k)%nat -> exists m, asks (plain_args "a" "d" None) 0 (p_core (joining k)) = PyOk m).
Proof.
  split; [exact joining_ok|]. split; [vmr|]. intros k L. unfold joining. cbn [p_core]. destruct (Nat.ltb_spec k 10); [lia|].
  assert (E : match asks (plain_args "a" "d" None) 0 (buffer_of joined) with PyOk _ => true | _ => false end = true) by vmr.
  revert E. generalize (asks (plain_args "a" "d" None) 0 (buffer_of joined)). intros [m| | | |]; try discriminate. eauto.
Qed.
Print Assumptions C76_keeps_trying_refuted.
(** -c "length of tf buffer cache in seconds": no value of it starts the program. *)
Theorem C76_cache_option_refuted : forall (S : Scalar) args, e_cache args <> None -> @echo_init S args = PyTypeError.
Proof. intros S args H. unfold echo_init. destruct (e_cache args); [reflexivity|contradiction]. Qed.
Print Assumptions C76_cache_option_refuted.
(** -o 0 "offset the lookup from current time": not the current time but the latest data. *)
Theorem C76_zero_offset_refuted :
  exists args, e_time args = None /\ e_offset args = Some (S754_zero false) /\
  forall Time_of Duration_of now t, time_wanted Time_of Duration_of args now t <-> t = 0.
Proof.
  exists (mkEchoArgs "a" "b" None None (Some (S754_zero false)) None). split; [reflexivity|]. split; [reflexivity|]. intros Time_of Duration_of now t. split.
  - intros [x t' [G _] _|x d _ [G Z] _ _|_ _]; [discriminate| |reflexivity]. injection G as <-. discriminate.
  - intros ->. apply wants_latest; intros v E; [discriminate|]. injection E as <-. reflexivity.
Qed.
Print Assumptions C76_zero_offset_refuted.
