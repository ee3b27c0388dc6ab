(** * Property theorems: static_transform_publisher (C75) *)
From Coq Require Import ZArith Bool List String Lia Reals Lra Floats.SpecFloat.
From Verif Require Import RosTime Scalar LinearMath Cache SpecCache BufferCore SpecCore CoreInv CoreSet CoreTheorems Malformed History
  Instances SpecReal RealSlerp RealQuat RealMatrix RealEuler TfTopics SpecTopics ExampleBuffers LookupDirect
  StaticPublisher SpecStaticPublisher StaticPublisherProofs.
Import ListNotations.
Open Scope string_scope.
Open Scope list_scope.
Open Scope Z_scope.

Lemma check_send : forall {S : Scalar} (m : tmsg S),
  (tm_frame m = tm_child m /\ check_and_send m = Exits 1) \/ (tm_frame m <> tm_child m /\ check_and_send m = Spins [[m]]).
Proof.
  intros S m. unfold check_and_send. destruct (String.eqb_spec (tm_frame m) (tm_child m)) as [E|E]; [left; auto|right]. auto.
Qed.
(** What main does, by what was asked. *)
Lemma publisher_asked : forall {S : Scalar} (atof : string -> S) param now args f c v q, (forall n p, param n = Some p -> typed p) ->
  asked atof param args f c v q -> static_publisher atof param now args = check_and_send (mkTmsg now f c v q).
Proof.
  intros S atof param now args f c v q T A. destruct A as [| |name p f c x y z qx qy qz qw P F8 F9 F1 F2 F3 F4 F5 F6 F7]; try reflexivity.
  assert (W : well_typed p).
  { split; intros path I; unfold number_paths, name_paths in I; cbn [In] in I; decompose [or] I; try contradiction; subst path; eauto. }
  cbn. rewrite P. pose proof (well_typed_complete p W) as C. pose proof C as V. apply validate_complete in V. rewrite V.
  assert (E : from_param now p = Some (mkTmsg now f c (V3 x y z) (Q4 qx qy qz qw))).
  { apply from_param_iff; [eapply T, P|exact C|]. exists f, c, x, y, z, qx, qy, qz, qw. tauto. }
  rewrite E. reflexivity.
Qed.
(** Otherwise. *)
Definition hopeless {S : Scalar} (param : string -> option (xmlrpc S)) (args : list string) : Prop :=
  ~ In (List.length args) [1%nat; 8%nat; 9%nat] \/
  exists name, args = [name] /\ (param name = None \/ exists p, param name = Some p /\ ~ complete p).
Definition mistyped {S : Scalar} (param : string -> option (xmlrpc S)) (args : list string) : Prop :=
  exists name p, args = [name] /\ param name = Some p /\ complete p /\ ~ well_typed p.
Lemma publisher_cases : forall {S : Scalar} (atof : string -> S) param now args, (forall n p, param n = Some p -> typed p) ->
  (exists f c v q, asked atof param args f c v q) \/
  (hopeless param args /\ static_publisher atof param now args = Exits (-1)) \/
  (mistyped param args /\ static_publisher atof param now args = Uncaught).
Proof.
  intros S atof param now args T.
  destruct (in_dec Nat.eq_dec (List.length args) [1%nat; 8%nat; 9%nat]) as [I|N]; [|right; left; split; [left; exact N|apply publisher_other; exact N]].
  cbn [In] in I. destruct I as [L|[L|[L|[]]]].
  - destruct args as [|name [|? ?]]; try discriminate. cbn.
    destruct (param name) as [p|] eqn:P; [|right; left; split; [right; eauto|reflexivity]].
    destruct (validateXmlRpcTf p) eqn:V.
    + apply validate_complete in V as C. destruct (from_param now p) as [m|] eqn:E.
      * left. apply from_param_iff in E; [|eapply T, P|exact C].
        destruct E as (f & c & x & y & z & qx & qy & qz & qw & _ & F8 & F9 & F1 & F2 & F3 & F4 & F5 & F6 & F7).
        exists f, c, (V3 x y z), (Q4 qx qy qz qw). econstructor; eassumption.
      * right. right. split; [|reflexivity]. exists name, p. split; [reflexivity|]. split; [exact P|]. split; [exact C|].
        intros W. apply (from_param_typed now p (T _ _ P) C) in W. congruence.
    + right. left. split; [|reflexivity]. right. exists name. split; [reflexivity|]. right. exists p. split; [exact P|].
      intros C. apply validate_complete in C. congruence.
  - destruct args as [|a1 [|a2 [|a3 [|a4 [|a5 [|a6 [|a7 [|a8 [|a9 args]]]]]]]]]; try discriminate. left. do 4 eexists. constructor.
  - destruct args as [|a1 [|a2 [|a3 [|a4 [|a5 [|a6 [|a7 [|a8 [|a9 [|a10 args]]]]]]]]]]; try discriminate. left. do 4 eexists. constructor.
Qed.

(** ** C75 *)
(** Whatever the arguments and the parameter server hold: the program publishes one message with
    one transform, the one asked for, or nothing. *)
Theorem C75_what_is_published :
  forall (S : Scalar) (atof : string -> S) param now args published, (forall n p, param n = Some p -> typed p) ->
  (static_publisher atof param now args = Spins published <->
   exists frame child v q, asked atof param args frame child v q /\ frame <> child /\ published = [[mkTmsg now frame child v q]]).
Proof.
  intros S atof param now args published T. split.
  - intros H. destruct (publisher_cases atof param now args T) as [(f & c & v & q & A)|[[_ E]|[_ E]]]; [|rewrite E in H; discriminate|rewrite E in H; discriminate].
    rewrite (publisher_asked atof param now args f c v q T A) in H. destruct (check_send (mkTmsg now f c v q)) as [[_ E]|[N E]]; [rewrite E in H; discriminate|].
    exists f, c, v, q. split; [exact A|]. split; [exact N|]. rewrite E in H. injection H as <-. reflexivity.
  - intros (f & c & v & q & A & N & ->). rewrite (publisher_asked atof param now args f c v q T A).
    destruct (check_send (mkTmsg now f c v q)) as [[X _]|[_ E]]; [contradiction|exact E].
Qed.
Print Assumptions C75_what_is_published.

(** When it gives up, and how: exit code 1, exit code -1 (255 to the shell), or terminated by an
    exception that main does not catch. *)
Theorem C75_when_it_gives_up :
  forall (S : Scalar) (atof : string -> S) param now args, (forall n p, param n = Some p -> typed p) ->
  (static_publisher atof param now args = Exits 1 <-> exists same v q, asked atof param args same same v q) /\
  (static_publisher atof param now args = Exits (-1) <->
     ~ In (List.length args) [1%nat; 8%nat; 9%nat] \/
     exists name, args = [name] /\ (param name = None \/ exists p, param name = Some p /\ ~ complete p)) /\
  (static_publisher atof param now args = Uncaught <->
     exists name p, args = [name] /\ param name = Some p /\ complete p /\ ~ well_typed p) /\
  (forall code, static_publisher atof param now args = Exits code -> code = 1 \/ code = -1).
Proof.
  intros S atof param now args T.
  assert (AH : forall f c v q, asked atof param args f c v q -> ~ hopeless param args).
  { intros f c v q A [N|(n & -> & P)].
    - destruct A; apply N; cbn [In List.length]; tauto.
    - inversion A as [| |name p0 f0 c0 x y z qx qy qz qw P0 F8 F9 F1 F2 F3 F4 F5 F6 F7]; subst.
      destruct P as [P|(p & P & NC)]; [congruence|]. assert (p = p0) by congruence. subst p0. apply NC.
      intros path I. unfold number_paths, name_paths in I. cbn [app In] in I. decompose [or] I; try contradiction; subst path; eauto. }
  assert (AM : forall f c v q, asked atof param args f c v q -> ~ mistyped param args).
  { intros f c v q A (n & p & -> & P & _ & NW).
    inversion A as [| |name p0 f0 c0 x y z qx qy qz qw P0 F8 F9 F1 F2 F3 F4 F5 F6 F7]; subst. assert (p = p0) by congruence. subst p0. apply NW.
    split; intros path I; unfold number_paths, name_paths in I; cbn [In] in I; decompose [or] I; try contradiction; subst path; eauto. }
  assert (HM : hopeless param args -> ~ mistyped param args).
  { intros H (n & p & -> & P & C & _). destruct H as [N|(n' & E & [Q|(p' & Q & NC)])].
    - apply N. cbn. tauto.
    - injection E as <-. congruence.
    - injection E as <-. assert (p' = p) by congruence. subst p'. contradiction. }
  destruct (publisher_cases atof param now args T) as [(f & c & v & q & A)|[[H E]|[M E]]].
  - rewrite (publisher_asked atof param now args f c v q T A).
    assert (U : forall f' c' v' q', asked atof param args f' c' v' q' -> tm_frame (mkTmsg now f c v q) = f' /\ tm_child (mkTmsg now f c v q) = c').
    { intros f' c' v' q' A'. cbn. destruct A as [| |name p f c x y z qx qy qz qw P F8 F9 F1 F2 F3 F4 F5 F6 F7]; inversion A'; subst; auto.
      assert (p0 = p) by congruence. subst p0. split.
      - match goal with H : found ["header"; "frame_id"] p (XString f') |- _ => pose proof (found_unique _ _ _ _ F8 H) end. congruence.
      - match goal with H : found ["child_frame_id"] p (XString c') |- _ => pose proof (found_unique _ _ _ _ F9 H) end. congruence. }
    specialize (AH _ _ _ _ A). specialize (AM _ _ _ _ A).
    destruct (check_send (mkTmsg now f c v q)) as [[Eq ->]|[Ne ->]]; cbn in Eq || cbn in Ne.
    + subst c. split; [split; [intros _; eauto|reflexivity]|]. split; [split; [discriminate|intros X; exfalso; apply AH, X]|].
      split; [split; [discriminate|intros X; exfalso; apply AM, X]|]. intros code X. injection X as <-. auto.
    + split; [split; [discriminate|intros (s & v' & q' & A'); destruct (U _ _ _ _ A') as [X Y]; cbn in X, Y; congruence]|].
      split; [split; [discriminate|intros X; exfalso; apply AH, X]|].
      split; [split; [discriminate|intros X; exfalso; apply AM, X]|]. discriminate.
  - rewrite E. split; [split; [discriminate|intros (s & v' & q' & A'); exfalso; exact (AH _ _ _ _ A' H)]|].
    split; [split; [intros _; exact H|reflexivity]|]. split; [split; [discriminate|intros X; exfalso; exact (HM H X)]|].
    intros code X. injection X as <-. auto.
  - rewrite E. split; [split; [discriminate|intros (s & v' & q' & A'); exfalso; exact (AM _ _ _ _ A' M)]|].
    split; [split; [discriminate|intros X; exfalso; exact (HM X M)]|]. split; [split; [intros _; exact M|reflexivity]|]. discriminate.
Qed.
Print Assumptions C75_when_it_gives_up.

(** The angles are yaw, pitch, roll in this order: the rotation published is about the fixed axes
    by roll about x, then pitch about y, then yaw about z; buffers refuse it only for its names. *)
Theorem C75_angles :
  forall (atof : string -> R) param now x y z yaw pitch roll frame child, frame <> child ->
  exists m : tmsg RS,
    @static_publisher RS atof param now [x; y; z; yaw; pitch; roll; frame; child] = Spins [[m]] /\
    tm_stamp m = now /\ tm_frame m = frame /\ tm_child m = child /\ tm_trans m = @V3 RS (atof x) (atof y) (atof z) /\
    qunit (tm_rot m) /\
    (forall v, quatRotate (tm_rot m) v = mmulv (ypr_matrix (atof yaw) (atof pitch) (atof roll)) v) /\
    (malformed m <-> stripSlash child = stripSlash frame \/ stripSlash child = "" \/ stripSlash frame = "").
Proof.
  intros atof param now x y z yaw pitch roll frame child N.
  exists (mkTmsg now frame child (@V3 RS (atof x) (atof y) (atof z)) (@qfromRPY RS (atof roll) (atof pitch) (atof yaw))).
  destruct (qfromRPY_ok (atof roll) (atof pitch) (atof yaw)) as [U M].
  split. { cbn. destruct (check_send (mkTmsg now frame child (@V3 RS (atof x) (atof y) (atof z)) (@qfromRPY RS (atof roll) (atof pitch) (atof yaw)))) as [[X _]|[_ E]]; [contradiction|exact E]. }
  cbn [tm_stamp tm_frame tm_child tm_trans tm_rot]. do 4 (split; [reflexivity|]). split; [exact U|].
  split. { intros v. rewrite <- M. symmetry. apply mfromQuat_rotate. exact U. }
  destruct (@qfromRPY RS (atof roll) (atof pitch) (atof yaw)) as [a b c d] eqn:Q.
  split.
  - intros H. destruct (string_dec (stripSlash child) (stripSlash frame)) as [E1|N1]; [auto|].
    destruct (string_dec (stripSlash child) "") as [E2|N2]; [auto|]. destruct (string_dec (stripSlash frame) "") as [E3|N3]; [auto|exfalso].
    eapply (malformed_real (mkTmsg now frame child (@V3 RS (atof x) (atof y) (atof z)) (@Q4 RS a b c d)) a b c d eq_refl) in H; [|exact N1|exact N2|exact N3].
    unfold qunit in U. cbn in U. replace (d * d + a * a + b * b + c * c - 1)%R with 0%R in H by lra. rewrite Rabs_R0 in H. lra.
  - intros H. unfold malformed. cbn [tm_child tm_frame]. tauto.
Qed.
Print Assumptions C75_angles.

(** Every buffer that gets the latched message, whenever it subscribes and whatever else it is
    told before and after (but for this child frame), answers the transform asked for, exactly, at
    every time. *)
Theorem C75_every_listener_has_it :
  forall (atof : string -> R) param now args published (s : core RS) before frame child v q post t,
  (forall n p, param n = Some p -> typed p) -> valid_time now ->
  @static_publisher RS atof param now args = Spins published ->
  @asked RS atof param args frame child v q ->
  ~ malformed (mkTmsg now frame child v q : tmsg RS) ->
  s = run before (receive_static (latched published) ++ post) -> reachable before -> Forall op_ok post -> early s ->
  let f := stripSlash frame in let c := stripSlash child in
  plain f -> plain c -> f <> NO_PARENT -> c <> NO_PARENT ->
  hist before c = None \/ (exists x, hist before c = Some (Static x)) -> not_set_again c post ->
  0 < t < dur_bound \/ (t = 0 /\ depth_ok s 0 c) ->
  exists m, lookupTransform s f c t = Ok m /\ m = mkTmsg t f c v q.
Proof.
  intros atof param now args published s before frame child v q post t T V H A NM Es R Fp Ea f c Pf Pc Nf Nc Hh Ns Ht.
  apply C75_what_is_published in H as (f' & c' & v' & q' & A' & N & ->); [|exact T].
  assert (Em : mkTmsg now f' c' v' q' = mkTmsg now frame child v q).
  { destruct A as [| |name p frame child x y z qx qy qz qw P F8 F9 F1 F2 F3 F4 F5 F6 F7]; inversion A'; subst; auto.
    assert (p0 = p) by congruence. subst p0.
    repeat match goal with H1 : found ?path p ?X, H2 : found ?path p ?Y |- _ => pose proof (found_unique _ _ _ _ H1 H2); clear H1 end. congruence. }
  rewrite Em in Es.
  set (m := mkTmsg now frame child v q) in *.
  assert (Sa : forall u, sample_at s u c = Some {| st_rot := q; st_trans := v; st_stamp := u; st_frame := f; st_child := c |}).
  { intros u. subst s. unfold latched, receive_static. cbn [rev map flat_map app].
    apply (static_last_wins before m _ true post c u); try assumption; [reflexivity|apply not_malformed, NM|].
    destruct Hh as [Hh|Hh]; [left; auto|right; exact Hh]. }
  assert (Li : forall u, link s u c = Some {| st_rot := q; st_trans := v; st_stamp := u; st_frame := f; st_child := c |}).
  { intros u. unfold link. rewrite Sa. cbn [st_frame]. destruct (String.eqb_spec f NO_PARENT); [contradiction|reflexivity]. }
  assert (Rs : reachable s).
  { destruct R as (ct & ops & Hc & Fo & ->). subst s. exists ct, (ops ++ receive_static (latched [[m]]) ++ post). split; [exact Hc|]. split; [|unfold run; symmetry; apply fold_left_app].
    apply Forall_app. split; [exact Fo|]. apply Forall_app. split; [|exact Fp]. unfold latched, receive_static. cbn. constructor; [exact V|constructor]. }
  apply reachable_wf in Rs as W. destruct (link_parent s t c _ W (Li t)) as (K1 & _ & K2). cbn [st_frame] in K1.
  assert (Nfc : f <> c). { intros E. apply NM. left. cbn. symmetry. exact E. }
  assert (Po : forall d, d = {| st_rot := q; st_trans := v; st_stamp := t; st_frame := f; st_child := c |} ->
     forall r : tmsg RS, tm_frame r = f /\ tm_child r = c /\ tm_stamp r = t /\
     (msg_pose r = pose_mul (pose_of d) pose_id \/ msg_pose r = pose_mul (pose_inv pose_id) (pose_mul (pose_of d) pose_id)) -> r = mkTmsg t f c v q).
  { intros d -> r (E1 & E2 & E3 & P). destruct (pose_direct (q, v)) as [D1 D2].
    assert (P' : msg_pose r = (q, v)).
    { destruct P as [P|P]; rewrite P; unfold pose_of; cbn [st_rot st_trans]; [exact D1|]. rewrite D1. exact D2. }
    destruct r as [st fr ch tr ro]. cbn in E1, E2, E3, P'. injection P' as -> ->. subst. reflexivity. }
  destruct Ht as [Ht|[-> Dp]].
  - destruct (lookup_direct s f c t _ Rs Ea Ht Pf Pc K1 K2 Nfc (Li t) eq_refl) as (r & Er & Hr). exists r. split; [exact Er|]. apply (Po _ eq_refl r Hr).
  - destruct (lookup_direct_latest s f c _ Rs Ea Pf Pc K1 K2 Nfc Dp (Li 0) eq_refl eq_refl) as (r & Er & Hr). exists r. split; [exact Er|]. apply (Po _ eq_refl r Hr).
Qed.
Print Assumptions C75_every_listener_has_it.

(** atof on the literals used below; 0 for what is no number, as the C library's. *)
Definition atof64 (s : string) : D64 :=
  if String.eqb s "1" then f64_of_Z 1 else if String.eqb s "2" then f64_of_Z 2 else if String.eqb s "3" then f64_of_Z 3 else f64_of_Z 0.
Definition xd (z : Z) : xmlrpc D64 := @XDouble D64 (f64_of_Z z).
Definition yaml_tf (w : xmlrpc D64) : xmlrpc D64 :=
  XStruct [("header", XStruct [("frame_id", XString "map")]); ("child_frame_id", XString "dock");
           ("transform", XStruct [("translation", XStruct [("x", xd 1); ("y", xd 2); ("z", xd 3)]);
                                  ("rotation", XStruct [("x", xd 0); ("y", xd 0); ("z", xd 0); ("w", w)])])].
Definition server (n : string) : option (xmlrpc D64) :=
  if String.eqb n "good" then Some (yaml_tf (xd 1)) else if String.eqb n "int" then Some (yaml_tf (XInt 1))
  else if String.eqb n "part" then Some (XStruct [("child_frame_id", XString "dock")]) else None.
Lemma server_typed : forall n p, server n = Some p -> typed p.
Proof.
  intros n p. unfold server. destruct (String.eqb n "good"); [|destruct (String.eqb n "int"); [|destruct (String.eqb n "part"); [|discriminate]]];
    intros H; injection H as <-; cbn; tauto.
Qed.
Definition show_end (e : ending D64) : option Z * list (list (string * string * time * list bool)) :=
  match e with
  | Exits c => (Some c, [])
  | Uncaught => (None, [])
  | Spins l => (Some 0, map (map (fun m : tmsg D64 => (tm_frame m, tm_child m, tm_stamp m,
      [@seqb D64 (vx (tm_trans m)) (f64_of_Z 1); @seqb D64 (vy (tm_trans m)) (f64_of_Z 2); @seqb D64 (vz (tm_trans m)) (f64_of_Z 3); @seqb D64 (qw (tm_rot m)) (f64_of_Z 1)]))) l)
  end.
(** All of the ways to ask and to fail occur. *)
Example C75_example :
  (forall n p, server n = Some p -> typed p) /\
  map (fun args => show_end (@static_publisher D64 atof64 server 77 args))
    [["1"; "2"; "3"; "0"; "0"; "0"; "1"; "map"; "dock"]; ["1"; "2"; "3"; "0"; "0"; "0"; "map"; "dock"]; ["good"];
     ["1"; "2"; "3"; "0"; "0"; "0"; "map"; "map"]; ["part"]; ["missing"]; ["1"; "2"; "3"; "map"; "dock"]; ["int"]; []] =
    [(Some 0, [[("map", "dock", 77, [true; true; true; true])]]); (Some 0, [[("map", "dock", 77, [true; true; true; true])]]);
     (Some 0, [[("map", "dock", 77, [true; true; true; true])]]);
     (Some 1, []); (Some (-1), []); (Some (-1), []); (Some (-1), []); (None, []); (Some (-1), [])] /\
  complete (yaml_tf (XInt 1)) /\ ~ well_typed (yaml_tf (XInt 1)).
Proof.
  split; [exact server_typed|]. split; [vmr|]. split; [apply validate_complete; reflexivity|].
  intros W. apply (from_param_typed 77 (yaml_tf (XInt 1))) in W; [apply W; reflexivity|cbn; tauto|apply validate_complete; reflexivity].
Qed.

(** Here the parent is in a cycle, so that no other chain through it ends; the published transform
    is answered all the same. *)
Definition atofR (s : string) : R := if String.eqb s "1" then 1%R else 0%R.
Definition no_params : string -> option (xmlrpc RS) := fun _ => None.
Definition ident : quat RS := @Q4 RS 0%R 0%R 0%R 1%R.
Definition loop_ops : list (core_op RS) :=
  [OSet (mkTmsg 5 "a" "b" (@V3 RS 0%R 0%R 0%R) ident) "me" true; OSet (mkTmsg 5 "b" "a" (@V3 RS 0%R 0%R 0%R) ident) "me" true].
Definition dock_args : list string := ["1"; "0"; "0"; "0"; "0"; "1"; "0"; "/a"; "dock"].
Definition dock_msg : tmsg RS := mkTmsg 9 "/a" "dock" (@V3 RS 1%R 0%R 0%R) (@Q4 RS 0%R 0%R 1%R 0%R).
Definition before_dock : core RS := run (init_core 100) loop_ops.
Definition after_dock : core RS := run before_dock (receive_static (latched [[dock_msg]]) ++ []).
Example C75_listener_example :
  @static_publisher RS atofR no_params 9 dock_args = Spins [[dock_msg]] /\
  forall t, 0 < t < dur_bound -> exists m, lookupTransform after_dock "a" "dock" t = Ok m /\
    m = mkTmsg t "a" "dock" (@V3 RS 1%R 0%R 0%R) (@Q4 RS 0%R 0%R 1%R 0%R).
Proof.
  assert (G : @static_publisher RS atofR no_params 9 dock_args = Spins [[dock_msg]]) by reflexivity.
  split; [exact G|]. intros t Ht.
  assert (A : @asked RS atofR no_params dock_args "/a" "dock" (@V3 RS 1%R 0%R 0%R) (@Q4 RS 0%R 0%R 1%R 0%R)) by apply (@by_quaternion RS atofR no_params).
  assert (Fo : Forall op_ok loop_ops) by (unfold loop_ops; repeat (constructor; [split; cbn; unfold time_bound; lia|]); constructor).
  assert (R : reachable before_dock) by (exists 100, loop_ops; split; [unfold dur_bound; lia|]; split; [exact Fo|reflexivity]).
  assert (NM : ~ malformed dock_msg).
  { intros M. apply (malformed_real dock_msg 0%R 0%R 1%R 0%R eq_refl) in M; [|discriminate..].
    replace (0 * 0 + 0 * 0 + 0 * 0 + 1 * 1 - 1)%R with 0%R in M by lra. rewrite Rabs_R0 in M. lra. }
  assert (E : early after_dock).
  { assert (X : after_dock = run (init_core 100) (loop_ops ++ receive_static (latched [[dock_msg]]) ++ [])) by (unfold run; rewrite fold_left_app; reflexivity).
    rewrite X. apply early_run; [unfold dur_bound; lia| |].
    - apply Forall_app. split; [exact Fo|]. constructor; [split; cbn; unfold time_bound; lia|constructor].
    - intros m a st [H|[H|[H|[]]]]; injection H as <- _ _; cbn; unfold dur_bound; lia. }
  assert (H : hist before_dock "dock" = None).
  { unfold before_dock. rewrite hist_run; [|unfold dur_bound; lia|exact Fo|discriminate].
    unfold loop_ops. cbn [fold_left frame_step strip_msg tm_child]. cbn [String.eqb stripSlash Ascii.eqb Bool.eqb].
    repeat match goal with |- context [if ?b then _ else _] => destruct b eqn:? end; try reflexivity; discriminate. }
  apply (C75_every_listener_has_it atofR no_params 9 dock_args [[dock_msg]] after_dock before_dock "/a" "dock" _ _ [] t);
    try assumption; try discriminate; try (split; [discriminate|reflexivity]).
  - split; unfold time_bound; lia.
  - constructor.
  - left. exact H.
  - constructor.
  - left. exact Ht.
Qed.

(** The program compares the names as given; buffers strip a leading slash first.  So it may
    publish, and keep publishing, a transform that every buffer refuses. *)
Theorem C75_published_means_usable_refuted :
  let published m := @static_publisher D64 atof64 server 77 m in
  (exists m, published ["1"; "2"; "3"; "0"; "0"; "0"; "/map"; "map"] = Spins [[m]] /\ forall s a, setTransform s m a true = (s, Ok false)) /\
  (* a quaternion whose last number is no number *)
  (exists m, published ["1"; "2"; "3"; "0"; "0"; "0"; "one"; "map"; "dock"] = Spins [[m]] /\ forall s a, setTransform s m a true = (s, Ok false)).
Proof.
  cbv zeta. split; (eexists; split; [reflexivity|intros s a; apply malformed_rejected, malformed_iff; vmr]).
Qed.
Print Assumptions C75_published_means_usable_refuted.

(** A whole number in the parameter (YAML "w: 1") is an int to XmlRpc: the program dies of an
    uncaught exception, after its own check has called the parameter complete. *)
Theorem C75_whole_numbers_refuted :
  server "int" = Some (yaml_tf (XInt 1)) /\ validateXmlRpcTf (yaml_tf (XInt 1)) = true /\
  @static_publisher D64 atof64 server 77 ["int"] = Uncaught.
Proof. split; [reflexivity|]. split; reflexivity. Qed.
Print Assumptions C75_whole_numbers_refuted.
