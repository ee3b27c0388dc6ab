(** * static_transform_publisher: proofs *)
From Coq Require Import ZArith Bool List String Lia.
From Verif Require Import RosTime Scalar LinearMath Cache BufferCore TfTopics StaticPublisher SpecStaticPublisher.
Import ListNotations.
Open Scope string_scope.
Open Scope Z_scope.

Section P.
Context {S : Scalar}.
Notation xmlrpc := (xmlrpc S).
Implicit Types (p : xmlrpc).

Definition get p path : xmlrpc := fold_left index path p.
Lemma found_get : forall path p x, found path p x -> get p path = x.
Proof. intros path p x H. induction H as [x|k l v path x F H IH]; [reflexivity|]. cbn. rewrite F. exact IH. Qed.
Lemma found_unique : forall path p x y, found path p x -> found path p y -> x = y.
Proof. intros path p x y H H'. rewrite <- (found_get _ _ _ H), <- (found_get _ _ _ H'). reflexivity. Qed.
Lemma hasMember_iff : forall p k, hasMember p k = true <-> exists x, found [k] p x.
Proof.
  intros p k. split.
  - intros H. destruct p as [| | | | | |l]; cbn in H; try discriminate. destruct (find_member k l) as [v|] eqn:E; [|discriminate].
    exists v. econstructor; [exact E|constructor].
  - intros [x H]. inversion H as [|k0 l v path0 x0 F G]; subst. cbn. rewrite F. reflexivity.
Qed.
Lemma found_app : forall path1 path2 p x y, found path1 p x -> found path2 x y -> found (path1 ++ path2) p y.
Proof. intros path1 path2 p x y H. induction H as [x|k l v path x F H IH]; intros H2; cbn; [exact H2|]. econstructor; [exact F|auto]. Qed.
Lemma found_split : forall path1 path2 p y, found (path1 ++ path2) p y -> exists x, found path1 p x /\ found path2 x y.
Proof.
  induction path1 as [|k path1 IH]; intros path2 p y H; cbn in H; [exists p; split; [constructor|exact H]|].
  inversion H as [|k0 l v path0 x0 F G]; subst. destruct (IH _ _ _ G) as (x & A & B). exists x. split; [econstructor; eassumption|exact B].
Qed.
Lemma hasMember_path : forall path p k, (exists x, found (path ++ [k]) p x) <-> (exists x, found path p x) /\ hasMember (get p path) k = true.
Proof.
  intros path p k. split.
  - intros [x H]. apply found_split in H as (y & A & B). split; [eauto|]. rewrite (found_get _ _ _ A). apply hasMember_iff. eauto.
  - intros [[y A] H]. rewrite (found_get _ _ _ A) in H. apply hasMember_iff in H as [x B]. exists x. eapply found_app; eassumption.
Qed.
Lemma validate_complete : forall p, validateXmlRpcTf p = true <-> complete p.
Proof.
  intros p. unfold validateXmlRpcTf. rewrite !andb_true_iff.
  pose proof (hasMember_path [] p) as H0. pose proof (hasMember_path ["header"] p) as H1. pose proof (hasMember_path ["transform"] p) as H2.
  pose proof (hasMember_path ["transform"; "translation"] p) as H3. pose proof (hasMember_path ["transform"; "rotation"] p) as H4.
  cbn [app get fold_left] in *. assert (T : exists x, found [] p x) by (exists p; constructor).
  unfold complete, number_paths, name_paths. cbn [app In].
  split.
  - intros V path I. decompose [and] V. clear V.
    assert (A1 : exists x, found ["header"] p x) by (apply H0; auto). assert (A2 : exists x, found ["transform"] p x) by (apply H0; auto).
    assert (A3 : exists x, found ["transform"; "translation"] p x) by (apply H2; auto). assert (A4 : exists x, found ["transform"; "rotation"] p x) by (apply H2; auto).
    decompose [or] I; try contradiction; subst path.
    + apply H3; auto. + apply H3; auto. + apply H3; auto. + apply H4; auto. + apply H4; auto. + apply H4; auto. + apply H4; auto. + apply H1; auto. + apply H0; auto.
  - intros C.
    pose proof (C _ (or_introl eq_refl)) as X1. pose proof (C _ (or_intror (or_introl eq_refl))) as X2. pose proof (C _ (or_intror (or_intror (or_introl eq_refl)))) as X3.
    pose proof (C ["transform"; "rotation"; "x"] ltac:(tauto)) as X4. pose proof (C ["transform"; "rotation"; "y"] ltac:(tauto)) as X5.
    pose proof (C ["transform"; "rotation"; "z"] ltac:(tauto)) as X6. pose proof (C ["transform"; "rotation"; "w"] ltac:(tauto)) as X7.
    pose proof (C ["header"; "frame_id"] ltac:(tauto)) as X8. pose proof (C ["child_frame_id"] ltac:(tauto)) as X9.
    apply H3 in X1 as [Y3 X1]. apply H3 in X2 as [_ X2]. apply H3 in X3 as [_ X3]. apply H4 in X4 as [Y4 X4]. apply H4 in X5 as [_ X5]. apply H4 in X6 as [_ X6]. apply H4 in X7 as [_ X7].
    apply H1 in X8 as [Y1 X8]. apply H0 in X9 as [_ X9]. apply H0 in Y1 as [_ Y1]. apply H2 in Y3 as [Y2 Y3]. apply H2 in Y4 as [_ Y4]. apply H0 in Y2 as [_ Y2].
    tauto.
Qed.

Lemma find_typed : forall k l (v : xmlrpc), typed (XStruct l) -> find_member k l = Some v -> typed v.
Proof.
  intros k l. induction l as [|[k' w] l IH]; intros v T F; cbn in F; [discriminate|]. destruct T as [T1 T2].
  destruct (String.eqb k k'); [injection F as <-; exact T1|]. apply IH; assumption.
Qed.
Lemma found_typed : forall path p x, found path p x -> typed p -> typed x.
Proof. intros path p x H. induction H as [x|k l v path x F H IH]; intros T; [exact T|]. apply IH. eapply find_typed; eassumption. Qed.

(** A well-typed parameter, and only it, yields a message. *)
Lemma from_param_iff : forall now p m, typed p -> complete p ->
  (from_param now p = Some m <->
   exists frame child x y z qx qy qz qw, m = mkTmsg now frame child (V3 x y z) (Q4 qx qy qz qw) /\
    found ["header"; "frame_id"] p (XString frame) /\ found ["child_frame_id"] p (XString child) /\
    found ["transform"; "translation"; "x"] p (XDouble x) /\ found ["transform"; "translation"; "y"] p (XDouble y) /\
    found ["transform"; "translation"; "z"] p (XDouble z) /\
    found ["transform"; "rotation"; "x"] p (XDouble qx) /\ found ["transform"; "rotation"; "y"] p (XDouble qy) /\
    found ["transform"; "rotation"; "z"] p (XDouble qz) /\ found ["transform"; "rotation"; "w"] p (XDouble qw)).
Proof.
  intros now p m T C. unfold from_param.
  assert (G : forall path, In path (number_paths ++ name_paths) -> found path p (get p path) /\ get p path <> XInvalid).
  { intros path I. destruct (C path I) as [x F]. rewrite (found_get _ _ _ F). split; [exact F|]. intros ->. apply (found_typed _ _ _ F T). }
  unfold number_paths, name_paths in G. cbn [app In] in G.
  split.
  - intros H.
    destruct (G ["transform"; "translation"; "x"] ltac:(tauto)) as [F1 N1]. destruct (G ["transform"; "translation"; "y"] ltac:(tauto)) as [F2 N2].
    destruct (G ["transform"; "translation"; "z"] ltac:(tauto)) as [F3 N3]. destruct (G ["transform"; "rotation"; "x"] ltac:(tauto)) as [F4 N4].
    destruct (G ["transform"; "rotation"; "y"] ltac:(tauto)) as [F5 N5]. destruct (G ["transform"; "rotation"; "z"] ltac:(tauto)) as [F6 N6].
    destruct (G ["transform"; "rotation"; "w"] ltac:(tauto)) as [F7 N7]. destruct (G ["header"; "frame_id"] ltac:(tauto)) as [F8 N8]. destruct (G ["child_frame_id"] ltac:(tauto)) as [F9 N9].
    cbn [get fold_left] in *.
    destruct (index (index (index p "transform") "translation") "x") as [| | |x| | |]; try discriminate; try congruence.
    destruct (index (index (index p "transform") "translation") "y") as [| | |y| | |]; try discriminate; try congruence.
    destruct (index (index (index p "transform") "translation") "z") as [| | |z| | |]; try discriminate; try congruence.
    destruct (index (index (index p "transform") "rotation") "x") as [| | |qx| | |]; try discriminate; try congruence.
    destruct (index (index (index p "transform") "rotation") "y") as [| | |qy| | |]; try discriminate; try congruence.
    destruct (index (index (index p "transform") "rotation") "z") as [| | |qz| | |]; try discriminate; try congruence.
    destruct (index (index (index p "transform") "rotation") "w") as [| | |qw| | |]; try discriminate; try congruence.
    destruct (index (index p "header") "frame_id") as [| | | |f| |]; try discriminate; try congruence.
    destruct (index p "child_frame_id") as [| | | |c| |]; try discriminate; try congruence.
    cbn in H. injection H as <-. exists f, c, x, y, z, qx, qy, qz, qw. tauto.
  - intros (f & c & x & y & z & qx & qy & qz & qw & -> & F8 & F9 & F1 & F2 & F3 & F4 & F5 & F6 & F7).
    apply found_get in F1, F2, F3, F4, F5, F6, F7, F8, F9. cbn [get fold_left] in *.
    rewrite F1, F2, F3, F4, F5, F6, F7, F8, F9. reflexivity.
Qed.
Lemma from_param_typed : forall now p, typed p -> complete p -> (from_param now p <> None <-> well_typed p).
Proof.
  intros now p T C. split.
  - intros N. destruct (from_param now p) as [m|] eqn:E; [|congruence]. apply from_param_iff in E; [|assumption|assumption].
    destruct E as (f & c & x & y & z & qx & qy & qz & qw & _ & F8 & F9 & F1 & F2 & F3 & F4 & F5 & F6 & F7).
    split; intros path I; unfold number_paths, name_paths in I; cbn [In] in I; decompose [or] I; try contradiction; subst path; eauto.
  - intros [N M]. unfold number_paths, name_paths in *. cbn [In] in *.
    destruct (N ["transform"; "translation"; "x"] ltac:(tauto)) as [x F1]. destruct (N ["transform"; "translation"; "y"] ltac:(tauto)) as [y F2].
    destruct (N ["transform"; "translation"; "z"] ltac:(tauto)) as [z F3]. destruct (N ["transform"; "rotation"; "x"] ltac:(tauto)) as [qx F4].
    destruct (N ["transform"; "rotation"; "y"] ltac:(tauto)) as [qy F5]. destruct (N ["transform"; "rotation"; "z"] ltac:(tauto)) as [qz F6].
    destruct (N ["transform"; "rotation"; "w"] ltac:(tauto)) as [qw F7]. destruct (M ["header"; "frame_id"] ltac:(tauto)) as [f F8]. destruct (M ["child_frame_id"] ltac:(tauto)) as [c F9].
    assert (E : from_param now p = Some (mkTmsg now f c (V3 x y z) (Q4 qx qy qz qw))).
    { apply from_param_iff; [assumption|assumption|]. exists f, c, x, y, z, qx, qy, qz, qw. tauto. }
    congruence.
Qed.
Lemma well_typed_complete : forall p, well_typed p -> complete p.
Proof.
  intros p [N M] path I. apply in_app_iff in I as [I|I]; [destruct (N path I) as [d F]|destruct (M path I) as [s F]]; eauto.
Qed.

(** main by the number of arguments *)
Lemma publisher_other : forall (atof : string -> S) param now args, ~ In (List.length args) [1%nat; 8%nat; 9%nat] -> static_publisher atof param now args = Exits (-1).
Proof.
  intros atof param now args N. cbn [In] in N.
  destruct args as [|a1 [|a2 [|a3 [|a4 [|a5 [|a6 [|a7 [|a8 [|a9 [|a10 args]]]]]]]]]]; cbn [List.length] in N; try reflexivity; exfalso; tauto.
Qed.
End P.
