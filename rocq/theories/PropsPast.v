(** * C81: new data does not rewrite the past *)
From Coq Require Import ZArith Bool List String Lia Arith Reals Floats.SpecFloat.
From Verif Require Import RosTime Scalar LinearMath Cache SpecCache BufferCore SpecCore CoreInv Naturality CoreSet Bridge History CoreTheorems
  Instances SpecReal LookupTheorems LookupTree LookupBase PropsLookup ExampleBuffers ExampleReal SpecPast PastProofs PastCore PastWalk PastAnswers.
Import ListNotations.
Open Scope Z_scope.

(** ** One frame *)
(** A frame that has a sample at [t] yields the very same sample after later traffic, or none at
    all; it keeps it if no message pushes it out of the storage time. *)
Theorem C81_sample_stays :
  forall (S : Scalar) (s : core S) t (ops : list (core_op S)) n d, reachable s -> 0 < t -> between_samples s t -> later_traffic s t ops ->
  sample_at s t n = Some d ->
  (sample_at (run s ops) t n = Some d \/ sample_at (run s ops) t n = None) /\
  ((forall m a st, In (OSet m a st) ops -> stripSlash (tm_child m) = n -> in_window t (tm_stamp m) (hist s n)) ->
   sample_at (run s ops) t n = Some d).
Proof. intros S s t ops n d R Ht B. apply sample_stays; auto. apply exact_between; assumption. Qed.
Print Assumptions C81_sample_stays.

(** A frame with nothing at [t] still has nothing, unless its data ended before [t]. *)
Theorem C81_nothing_stays :
  forall (S : Scalar) (s : core S) t (ops : list (core_op S)) n, reachable s -> 0 < t -> later_traffic s t ops ->
  sample_at s t n = None -> sample_at (run s ops) t n = None \/ behind t (hist s n).
Proof. exact @nothing_stays. Qed.
Print Assumptions C81_nothing_stays.

(** ** Answers *)
(** Bit for bit, in every arithmetic: the same question about [t] has the same answer. *)
Theorem C81_answers_stay :
  forall (S : Scalar) (s : core S) t (ops : list (core_op S)) target source, reachable s -> early s -> 0 < t < dur_bound -> between_samples s t ->
  later_traffic s t ops -> none_behind s t ops -> none_expires s t ops ->
  agrees (lookupTransform s target source t) (lookupTransform (run s ops) target source t) /\
  canTransform s target source t None = canTransform (run s ops) target source t None.
Proof. intros S s t ops target source R He Ht B. apply answers_stay_gen; auto. apply exact_between; [lia|assumption]. Qed.
Print Assumptions C81_answers_stay.

(** Over the reals also at the stamps of the samples. *)
Theorem C81_answers_stay_real :
  forall (s : core RS) t (ops : list (core_op RS)) target source, reachable s -> early s -> 0 < t < dur_bound ->
  later_traffic s t ops -> none_behind s t ops -> none_expires s t ops ->
  agrees (lookupTransform s target source t) (lookupTransform (run s ops) target source t) /\
  canTransform s target source t None = canTransform (run s ops) target source t None.
Proof. intros s t ops target source R He Ht. apply answers_stay_gen; auto. apply exact_real; lia. Qed.
Print Assumptions C81_answers_stay_real.

(** Whatever may be pushed out: an answer about [t] given afterwards was the answer before. *)
Theorem C81_no_new_answers :
  forall (s : core RS) t (ops : list (core_op RS)) target source m, reachable s -> early s -> unit_samples s -> unit_ops ops ->
  0 < t < dur_bound -> later_traffic s t ops -> none_behind s t ops -> depth_ok s t source -> depth_ok s t target ->
  lookupTransform (run s ops) target source t = Ok m -> lookupTransform s target source t = Ok m.
Proof. exact answer_was_there. Qed.
Print Assumptions C81_no_new_answers.

(** Whatever may have been late: an answer about [t] given before is the answer afterwards. *)
Theorem C81_answers_remain :
  forall (s : core RS) t (ops : list (core_op RS)) target source m, reachable s -> early s -> unit_samples s -> unit_ops ops ->
  0 < t < dur_bound -> later_traffic s t ops -> none_expires s t ops -> depth_ok (run s ops) t source -> depth_ok (run s ops) t target ->
  lookupTransform s target source t = Ok m -> lookupTransform (run s ops) target source t = Ok m.
Proof. exact answer_remains. Qed.
Print Assumptions C81_answers_remain.

(** "The latest transform", asked again later with the stamp it came with. *)
Theorem C81_latest_again :
  forall (s : core RS) (ops : list (core_op RS)) target source m, reachable s -> early s -> unit_samples s -> unit_ops ops ->
  lookupTransform s target source 0 = Ok m -> 0 < tm_stamp m < dur_bound ->
  later_traffic s (tm_stamp m) ops -> none_expires s (tm_stamp m) ops ->
  depth_ok (run s ops) (tm_stamp m) source -> depth_ok (run s ops) (tm_stamp m) target ->
  lookupTransform (run s ops) target source (tm_stamp m) = Ok m.
Proof.
  intros s ops target source m R He U Uo H Ht L Ne Ds Dt. apply answer_remains; auto. apply latest_then_at_stamp; assumption.
Qed.
Print Assumptions C81_latest_again.

(** ** Concrete cases *)
Section D.
Context {S : Scalar}.
Implicit Types (s : core S).
Lemma agrees_ok : forall (r r' : res (tmsg S)) m, agrees r r' -> r = Ok m -> r' = Ok m.
Proof. intros r r' m A H. apply A. assumption. Qed.
Definition later_b s (t : time) (o : core_op S) : bool :=
  match o with
  | OSet m _ st => negb st && (t <? tm_stamp m) && (tm_stamp m <? dur_bound) &&
      match hist s (stripSlash (tm_child m)) with
      | None => true | Some (Static _) => false | Some (Dynamic _ l) => forallb (fun x => st_stamp x <? tm_stamp m) l end
  | OClear => false
  end.
Lemma later_by : forall s t ops, forallb (later_b s t) ops = true -> later_traffic s t ops.
Proof.
  intros s t ops H. apply Forall_forall. intros o Ho. rewrite forallb_forall in H. specialize (H o Ho).
  destruct o as [m a st|]; cbn in *; [|discriminate]. rewrite !andb_true_iff in H. destruct H as (((A & B) & C) & D).
  split; [destruct st; [discriminate|reflexivity]|]. split; [split; apply Z.ltb_lt; assumption|]. unfold newer_than_all.
  destruct (hist s (stripSlash (tm_child m))) as [[mx l|o]|]; [|discriminate|exact I].
  intros x Hx. rewrite forallb_forall in D. apply Z.ltb_lt. apply D. assumption.
Qed.
Definition behind_b s (t : time) (o : core_op S) : bool :=
  match o with
  | OSet m _ _ => match hist s (stripSlash (tm_child m)) with
      | Some (Dynamic _ l) => negb (match l with [] => true | _ => false end) && forallb (fun x => st_stamp x <? t) l
      | _ => false end
  | OClear => false
  end.
Lemma not_behind_by : forall s t ops, forallb (fun o => negb (behind_b s t o)) ops = true -> none_behind s t ops.
Proof.
  intros s t ops H m a st Hin (mx & l & E & Nl & B). rewrite forallb_forall in H. specialize (H _ Hin). cbn in H. rewrite E in H.
  destruct l as [|x l]; [congruence|]. cbn [negb andb] in H. rewrite (proj2 (forallb_forall _ _)) in H; [discriminate|].
  intros y Hy. apply Z.ltb_lt. apply B. assumption.
Qed.
Definition window_b s (t : time) (o : core_op S) : bool :=
  match o with
  | OSet m _ _ => match hist s (stripSlash (tm_child m)) with
      | Some (Dynamic mx l) => negb (existsb (fun x => st_stamp x <=? t) l) ||
          existsb (fun x => (st_stamp x <=? t) && (tm_stamp m <=? st_stamp x + mx)) l
      | _ => true end
  | OClear => true
  end.
Lemma not_expired_by : forall s t ops, forallb (window_b s t) ops = true -> none_expires s t ops.
Proof.
  intros s t ops H m a st Hin. rewrite forallb_forall in H. specialize (H _ Hin). cbn in H. unfold in_window.
  destruct (hist s (stripSlash (tm_child m))) as [[mx l|o]|]; [|exact I|exact I]. intros (x & Hx & Lx). apply orb_true_iff in H as [H|H].
  - exfalso. assert (E : existsb (fun x => st_stamp x <=? t) l = true) by (apply existsb_exists; exists x; split; [assumption|apply Z.leb_le; assumption]).
    rewrite E in H. discriminate.
  - apply existsb_exists in H as (y & Hy & B). apply andb_true_iff in B as [B1 B2]. exists y.
    split; [assumption|]. split; apply Z.leb_le; assumption.
Qed.
Definition between_b s (t : time) : bool :=
  forallb (fun o => match o with Some (Dynamic _ l) => forallb (fun x => negb (st_stamp x =? t)) l | _ => true end) (c_frames s).
Lemma between_by : forall s t, between_b s t = true -> between_samples s t.
Proof.
  intros s t H n mx l x Hc Hx E. unfold hist in Hc. destruct (assoc n (c_ids s)) as [[|i]|]; try discriminate.
  destruct (getFrame s (Datatypes.S i)) as [c0|] eqn:G; [|discriminate]. destruct c0 as [mx0 l0|o]; [|discriminate].
  cbn in Hc. injection Hc as <- <-. apply in_map_iff in Hx as (y & <- & Hy). cbn in E.
  unfold between_b in H. rewrite forallb_forall in H. unfold getFrame in G.
  destruct (nth_error (c_frames s) (Datatypes.S i)) as [o|] eqn:En; [|discriminate]. subst o. apply nth_error_In in En.
  specialize (H _ En). cbn in H. rewrite forallb_forall in H. specialize (H y Hy). rewrite E, Z.eqb_refl in H. discriminate.
Qed.
End D.
Open Scope string_scope.

(** The robot at 15, before and after more odometry, and a new arm. *)
Definition more : list (core_op D64) :=
  [ dyn "odom" "base" 40 (v64 9 0 0) id64; dyn "map" "odom" 55 (v64 3 3 3) zpi64; dyn "base" "arm" 60 (v64 0 0 1) id64; dyn "map" "odom" 30 (v64 1 3 3) zpi64;
    dyn "" "base" 41 (v64 9 0 0) id64 ].
Example C81_example :
  reachable robot /\ early robot /\ between_samples robot 15 /\ later_traffic robot 15 more /\ none_behind robot 15 more /\ none_expires robot 15 more /\
  exists m, lookupTransform robot "beacon" "base" 15 = Ok m /\ lookupTransform (run robot more) "beacon" "base" 15 = Ok m.
Proof.
  split; [exact robot_reachable|]. split; [exact robot_early|]. split; [apply between_by; vmr|]. split; [apply later_by; vmr|].
  split; [apply not_behind_by; vmr|]. split; [apply not_expired_by; vmr|].
  destruct (ok_by (lookupTransform robot "beacon" "base" 15)) as [m Hm]; [vmr|]. exists m. split; [assumption|].
  refine (agrees_ok _ _ m _ Hm).
  refine (proj1 (C81_answers_stay D64 robot 15 more "beacon" "base" robot_reachable robot_early _ _ _ _ _)); [unfold dur_bound; lia|apply between_by; vmr|apply later_by; vmr|apply not_behind_by; vmr|apply not_expired_by; vmr].
Qed.

(** Pushed out: the question about 15 is refused once data stamped 300 has come in. *)
Example C81_example_expired :
  let s' := run robot [dyn "odom" "base" 300 (v64 9 0 0) id64] in
  (exists m, lookupTransform robot "map" "base" 15 = Ok m) /\ exists e, lookupTransform s' "map" "base" 15 = Throw ExtrapolationException e.
Proof. intros s'. split; [apply ok_by; vmr|apply throw_by; vmr]. Qed.
(** Late data: "base" is behind at 19, and gets its answer later. *)
Example C81_example_late :
  let s' := run robot [dyn "odom" "base" 30 (v64 9 0 0) id64] in
  behind 19 (hist robot "base") /\
  (exists e, lookupTransform robot "map" "base" 19 = Throw ExtrapolationException e) /\ exists m, lookupTransform s' "map" "base" 19 = Ok m.
Proof.
  intros s'. split; [|split; [apply throw_by; vmr|apply ok_by; vmr]].
  assert (B : behind_b robot 19 (dyn "odom" "base" 30 (v64 9 0 0) id64) = true) by vmr. unfold behind_b, dyn in B.
  change (stripSlash (tm_child (msg "odom" "base" 30 (v64 9 0 0) id64))) with "base" in B.
  destruct (hist robot "base") as [[mx l|o]|]; try discriminate. apply andb_true_iff in B as [B1 B2]. exists mx, l.
  split; [reflexivity|]. split; [destruct l; [discriminate|intros X; discriminate]|]. intros x Hx. rewrite forallb_forall in B2. apply Z.ltb_lt. auto.
Qed.

(** Over the reals: at 20, the stamp of base's newest sample. *)
Definition rmore : list (core_op RS) := [OSet (rmsg "map" "base" 30 (rv 4 4 4) spin) "me" false].
Example C81_example_real :
  later_traffic rbot 20 rmore /\ none_behind rbot 20 rmore /\ none_expires rbot 20 rmore /\ unit_ops rmore /\
  exists m, lookupTransform rbot "map" "lidar" 0 = Ok m /\ tm_stamp m = 20 /\ lookupTransform (run rbot rmore) "map" "lidar" 20 = Ok m.
Proof.
  assert (Hb : hist rbot "base" = Some (Dynamic 100 [xs 20 (rv 3 2 1) still "map" "base"; xs 10 (rv 1 2 3) turn "map" "base"])) by (rewrite rbot_hist by discriminate; reflexivity).
  assert (L : later_traffic rbot 20 rmore).
  { constructor; [|constructor]. split; [reflexivity|]. split; [cbn [rmsg tm_stamp]; unfold dur_bound; lia|]. change (newer_than_all (rmsg "map" "base" 30 (rv 4 4 4) spin) (hist rbot "base")). rewrite Hb. intros x [<-|[<-|[]]]; cbn; lia. }
  assert (B : none_behind rbot 20 rmore).
  { intros m a st [E|[]] (mx & l & Eh & _ & X). injection E as <- _ _. change (hist rbot "base" = Some (Dynamic mx l)) in Eh. rewrite Hb in Eh. injection Eh as <- <-.
    specialize (X _ (or_introl eq_refl)). cbn in X. lia. }
  assert (N : none_expires rbot 20 rmore).
  { intros m a st [E|[]]. injection E as <- _ _. change (in_window 20 30 (hist rbot "base")). rewrite Hb. intros _. exists (xs 20 (rv 3 2 1) still "map" "base"). cbn. split; [auto|lia]. }
  split; [assumption|]. split; [assumption|]. split; [assumption|]. split.
  { intros m a st [E|[]]. injection E as <- _ _. exact spin_unit. }
  assert (Lk : link rbot 0 "lidar" = Some (xs 0 (rv 0 0 1) spin "base" "lidar")) by (unfold link, sample_at; rewrite rbot_hist by discriminate; reflexivity).
  assert (Lb : link rbot 0 "base" = Some (xs 20 (rv 3 2 1) still "map" "base")) by (unfold link, sample_at; rewrite rbot_hist by discriminate; reflexivity).
  assert (C : climbs rbot 0 "lidar" [xs 0 (rv 0 0 1) spin "base" "lidar"; xs 20 (rv 3 2 1) still "map" "base"] "map").
  { econstructor; [exact Lk|]. econstructor; [exact Lb|]. constructor. }
  assert (Lt : forall n d, link rbot 0 "map" = Some d -> n = d) by (intros n d Hd; apply rbot_link in Hd as [[? _]|[[? _]|[? _]]]; discriminate).
  assert (K : forall n, In n ["map"; "lidar"] -> known rbot n) by (intros n [<-|[<-|[]]]; apply rbot_known; cbn; auto).
  destruct (lct_is_oldest rbot "map" "lidar" _ [] "map" rbot_reachable (K _ (or_introl eq_refl)) (K _ (or_intror (or_introl eq_refl))) ltac:(discriminate) (rbot_depth _ _) (rbot_depth _ _) C (climbs_nil _ _ _)) as (r & Er & Or).
  { intros c' [_ [es Ce]]. exists es. exact Ce. }
  assert (r = 20).
  { cbn [map app xs st_stamp] in Or. assert (T : 20 < TIME_MAX) by (vm_compute; reflexivity).
    destruct Or as [(_ & X)|(N0 & _ & [E|[E|[]]] & _)]; [|congruence|congruence]. destruct (X 20); [cbn; auto|lia|lia]. }
  subst r.
  assert (Lb' : exists d, link rbot 20 "base" = Some d /\ st_frame d = "map").
  { unfold link, sample_at. rewrite Hb. eexists. split; reflexivity. }
  assert (Ll' : exists d, link rbot 20 "lidar" = Some d /\ st_frame d = "base").
  { unfold link, sample_at. rewrite rbot_hist by discriminate. eexists. split; reflexivity. }
  destruct Lb' as (d1 & L1 & F1). destruct Ll' as (d2 & L2 & F2).
  assert (CA : exists c, common_ancestor rbot 20 "lidar" "map" c).
  { exists "map". split; [exists [d2; d1]|exists []; constructor]. econstructor; [exact L2|]. rewrite F2. econstructor; [exact L1|]. rewrite F1. constructor. }
  assert (Pl : forall n, In n ["map"; "lidar"] -> plain n) by (intros n [<-|[<-|[]]]; plain_tac).
  destruct (proj2 (C54_latest_lookup_succeeds_iff RS rbot "map" "lidar" rbot_reachable rbot_early (Pl _ (or_introl eq_refl)) (Pl _ (or_intror (or_introl eq_refl)))
    (K _ (or_introl eq_refl)) (K _ (or_intror (or_introl eq_refl))) ltac:(discriminate) (fun t => rbot_depth t _) (fun t => rbot_depth t _))) as [m Hm].
  { destruct CA as [c CA]. exists 20, c. auto. }
  exists m. split; [assumption|].
  assert (Es : tm_stamp m = 20).
  { destruct (lookup_header rbot "map" "lidar" 0 m rbot_reachable Hm) as (_ & _ & _ & Hl). rewrite Er in Hl. specialize (Hl eq_refl ltac:(discriminate)). congruence. }
  split; [assumption|].
  refine (agrees_ok _ _ m (proj1 (C81_answers_stay_real rbot 20 rmore "map" "lidar" rbot_reachable rbot_early _ L B N)) _); [unfold dur_bound; lia|].
  rewrite <- Es. apply latest_then_at_stamp; [exact rbot_reachable|assumption].
Qed.

(** ** What does not hold *)
(** Bit for bit this fails at the stamp of a stored sample: reading the newest sample at its own
    stamp copies it, but once newer data exists it is interpolated (at ratio 0), and next to an
    infinite coordinate that gives NaN (C04). *)
Definition inf_more : list (core_op D64) := [dyn "map" "odom" 30 (@V3 D64 (S754_infinity false) (f64_of_Z 0) (f64_of_Z 0)) id64].
Definition x_of (r : res (tmsg D64)) : spec_float :=
  match r with Ok m => vx (tm_trans m) | _ => S754_zero true end.
Theorem C81_newest_stamp_refuted :
  reachable robot /\ early robot /\ later_traffic robot 20 inf_more /\ none_behind robot 20 inf_more /\ none_expires robot 20 inf_more /\
  exists m m', lookupTransform robot "map" "odom" 20 = Ok m /\ lookupTransform (run robot inf_more) "map" "odom" 20 = Ok m' /\
    vx (tm_trans m) = f64_of_Z 10 /\ vx (tm_trans m') = S754_nan.
Proof.
  split; [exact robot_reachable|]. split; [exact robot_early|]. split; [apply later_by; vmr|]. split; [apply not_behind_by; vmr|].
  split; [apply not_expired_by; vmr|].
  destruct (ok_by (lookupTransform robot "map" "odom" 20)) as [m Hm]; [vmr|].
  destruct (ok_by (lookupTransform (run robot inf_more) "map" "odom" 20)) as [m' Hm']; [vmr|]. exists m, m'.
  split; [assumption|]. split; [assumption|].
  assert (E : x_of (lookupTransform robot "map" "odom" 20) = f64_of_Z 10) by vmr.
  assert (E' : x_of (lookupTransform (run robot inf_more) "map" "odom" 20) = S754_nan) by vmr.
  rewrite Hm in E. rewrite Hm' in E'. split; assumption.
Qed.
Print Assumptions C81_newest_stamp_refuted.
