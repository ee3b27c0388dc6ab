(** * Property C99: the service tf2_frames *)
From Coq Require Import ZArith Bool List String Lia PeanoNat.
From Verif Require Import RosTime Scalar LinearMath Cache BufferCore SpecCore Instances ExampleBuffers Introspection FramesService SpecFramesService FramesServiceProofs.
Import ListNotations.
Open Scope string_scope.
Open Scope list_scope.

(** Whatever a node does with its buffers and from however many threads: the first buffer with debug
    to finish its constructor serves tf2_frames until it is destroyed (in Python: for ever), and
    each reply describes exactly what that buffer holds at that moment. *)
Theorem C99_the_first_buffer_serves :
  forall (S : Scalar) py (h : list (event S)) s b c, runs py h s -> first_debug h b ->
  py = true \/ ~ In (Destroy b) h -> holds h b c ->
  call s = Some (allFramesAsYAML c szero).
Proof.
  intros S py h s b c R F P H. destruct (server_call py h s b R (first_serves py h s b R F P)) as (c' & H' & E).
  rewrite E. rewrite (holds_same py h s b c c' R H H'). reflexivity.
Qed.
Print Assumptions C99_the_first_buffer_serves.
(** No reply comes from anything else than one buffer of the node that was constructed with debug
    and (C++) not destroyed. *)
Theorem C99_replies_come_from_a_living_buffer :
  forall (S : Scalar) py (h : list (event S)) s r, runs py h s -> call s = Some r ->
  exists b c, debug h b /\ In (Finish b) h /\ (py = false -> ~ In (Destroy b) h) /\ holds h b c /\ r = allFramesAsYAML c szero.
Proof.
  intros S py h s r R E. pose proof (runs_inv _ _ _ R) as I. unfold call in E.
  destruct (n_server s) as [b|] eqn:W; [|discriminate].
  destruct (i_server _ _ _ I b W) as ((c & A) & D & F & G). rewrite A in E. injection E as <-.
  exists b, c. repeat (split; [assumption|]). split; [exact (i_begun _ _ _ I _ _ _ A)|reflexivity].
Qed.
Print Assumptions C99_replies_come_from_a_living_buffer.

Lemma runs_last {S : Scalar} py (h : list (event S)) e s : runs py (h ++ [e]) s -> exists s0, runs py h s0 /\ nstep py s0 e = Some s.
Proof.
  intros R. inversion R as [X|h0 s0 e0 s1 R0 E X].
  - destruct h; discriminate.
  - apply app_inj_tail in X. destruct X as [-> ->]. eauto.
Qed.
Lemma runs_split {S : Scalar} py (h1 h2 : list (event S)) s : runs py (h1 ++ h2) s -> exists s1, runs py h1 s1.
Proof.
  revert s. induction h2 as [|e h2 IH] using rev_ind; intros s R.
  - rewrite app_nil_r in R. eauto.
  - rewrite app_assoc in R. apply runs_last in R. destruct R as (s0 & R & _). exact (IH s0 R).
Qed.
(** C++: once the serving buffer is destroyed the service is gone, whatever other buffers with debug
    live, until another one is constructed. *)
Theorem C99_nobody_takes_over :
  forall (S : Scalar) (h1 h2 : list (event S)) s b, runs false (h1 ++ Destroy b :: h2) s ->
  first_debug h1 b -> ~ In (Destroy b) h1 ->
  (forall b', debug h1 b' -> In (Finish b') h1) ->
  (forall b' ct, ~ In (Begin b' true ct) h2) ->
  call s = None.
Proof.
  intros S h1 h2 s b R F ND Done NB.
  assert (Q : quiet s).
  { revert s R NB. induction h2 as [|e h2 IH] using rev_ind; intros s R NB.
    - apply runs_last in R. destruct R as (s1 & R & E). pose proof (runs_inv _ _ _ R) as I.
      pose proof (first_serves false h1 s1 b R F (or_intror ND)) as W. cbn [nstep] in E.
      destruct (n_buf s1 b) as [[[a|] c]|] eqn:B; try discriminate. rewrite W, Nat.eqb_refl in E. injection E as <-.
      split; [reflexivity|]. cbn. intros x c0. unfold upd. destruct (Nat.eqb_spec x b); [discriminate|].
      intros X. apply (proj1 (i_building _ _ _ I _ _ _ X)). apply Done. exact (i_true _ _ _ I _ _ X).
    - change (Destroy b :: h2 ++ [e]) with ((Destroy b :: h2) ++ [e]) in R. rewrite app_assoc in R. apply runs_last in R.
      destruct R as (s0 & R & E).
      apply (quiet_step false s0 e s); [apply IH; [exact R|]|exact E|].
      + intros b' ct X. apply (NB b' ct). apply in_or_app. left. exact X.
      + intros b' ct ->. apply (NB b' ct). apply in_or_app. right. left. reflexivity. }
  unfold call. destruct Q as [-> _]. reflexivity.
Qed.
Print Assumptions C99_nobody_takes_over.
(** A Python constructor never raises as long as constructors do not overlap. *)
Theorem C99_constructors_in_sequence_do_not_raise :
  forall (S : Scalar) py (h : list (event S)) s, runs py h s ->
  (forall h1 b d ct e h2, h = h1 ++ Begin b d ct :: e :: h2 -> e = Finish b) ->
  n_raised s = [].
Proof.
  intros S py h s R C.
  enough (K : n_raised s = [] /\ forall b c, n_buf s b = Some (Building true, c) -> n_server s = None /\ exists h0 d ct, h = h0 ++ [Begin b d ct]) by apply K.
  induction R as [|h s e s' R IH E]; [split; [reflexivity|discriminate]|].
  destruct IH as [Z K].
  { intros h1 b d ct e0 h2 X. apply (C h1 b d ct e0 (h2 ++ [e])). rewrite X, <- app_assoc. reflexivity. }
  assert (Nx : forall b c, n_buf s b = Some (Building true, c) -> e = Finish b).
  { intros b c X. destruct (K b c X) as (_ & h0 & d & ct & ->). apply (C h0 b d ct e []). rewrite <- app_assoc. reflexivity. }
  destruct e as [b d ct|b|b o|b]; cbn [nstep] in E.
  - destruct (Nat.ltb b (n_next s)); [discriminate|]. injection E as <-. split; [exact Z|]. cbn. intros x c X. unfold upd in X.
    destruct (Nat.eqb_spec x b) as [->|N].
    + injection X as X _. split; [|exists h, d, ct; reflexivity]. destruct (n_server s); [|reflexivity]. rewrite andb_false_r in X. discriminate.
    + specialize (Nx x c X). discriminate.
  - destruct (n_buf s b) as [[[[|]|] c]|] eqn:B; try discriminate.
    + destruct (K b c B) as (NS & _). rewrite NS in E. injection E as <-. split; [exact Z|]. cbn. intros x c0 X. unfold upd in X.
      destruct (Nat.eqb_spec x b); [discriminate|]. specialize (Nx x c0 X). injection Nx as Nx. congruence.
    + injection E as <-. split; [exact Z|]. cbn. intros x c0 X. unfold upd in X.
      destruct (Nat.eqb_spec x b); [discriminate|]. specialize (Nx x c0 X). injection Nx as Nx. congruence.
  - destruct (n_buf s b) as [[[a|] c]|] eqn:B; try discriminate. injection E as <-. split; [exact Z|]. cbn. intros x c0 X. unfold upd in X.
    destruct (Nat.eqb_spec x b); [discriminate|]. specialize (Nx x c0 X). discriminate.
  - destruct (n_buf s b) as [[[a|] c]|] eqn:B; try discriminate.
    assert (G : n_raised s' = n_raised s /\ forall x c0, n_buf s' x = Some (Building true, c0) -> n_buf s x = Some (Building true, c0)).
    { destruct (match n_server s with Some b' => Nat.eqb b b' | None => false end); [destruct py|]; injection E as <-; (split; [reflexivity|]); cbn; intros x c0 X; try exact X;
        unfold upd in X; (destruct (Nat.eqb_spec x b); [discriminate|exact X]). }
    destruct G as [G1 G2]. split; [congruence|]. intros x c0 X. specialize (Nx x c0 (G2 _ _ X)). discriminate.
Qed.
Print Assumptions C99_constructors_in_sequence_do_not_raise.

(** Two buffers with debug; what a call shows is the first one's content. *)
Definition names (s : option (node D64)) : option (option (list string)) :=
  match s with
  | None => None
  | Some s => Some (match call s with Some (Ok (Some rows)) => Some (map y_name rows) | Some (Ok None) => Some [] | _ => None end)
  end.
Fixpoint exec (py : bool) (s : node D64) (h : list (event D64)) : option (node D64) :=
  match h with [] => Some s | e :: h' => match nstep py s e with Some s' => exec py s' h' | None => None end end.
Lemma exec_runs py h : forall h0 s s', runs py h0 s -> exec py s h = Some s' -> runs py (h0 ++ h) s'.
Proof.
  induction h as [|e h IH]; intros h0 s s' R E; cbn [exec] in E.
  - injection E as <-. rewrite app_nil_r. exact R.
  - destruct (nstep py s e) as [s1|] eqn:X; [|discriminate].
    change (e :: h) with ([e] ++ h). rewrite app_assoc. eapply IH; [|exact E]. eapply runs_step; eassumption.
Qed.
Definition two : list (event D64) :=
  [Begin 0 true 100%Z; Finish 0; Begin 1 true 100%Z; Finish 1;
   Use 0 (dyn "map" "base" 1 (v64 0 0 0) id64)%Z; Use 1 (dyn "map" "other" 1 (v64 0 0 0) id64)%Z].
Theorem C99_example :
  (names (exec false node0 two) = Some (Some ["base"]) /\ names (exec true node0 two) = Some (Some ["base"])) /\
  first_debug two 0 /\ ~ In (Destroy 0) two.
Proof.
  split; [split; vm_compute; reflexivity|]. split.
  - exists [Begin 0 true 100%Z], (skipn 2 two). split; [reflexivity|]. split; [exists 100%Z; left; reflexivity|].
    intros b' [X|[]]. discriminate.
  - intros X. repeat (destruct X as [X|X]; [discriminate|]). destruct X.
Qed.
(** So not every node that has a living buffer with debug offers the service, *)
Theorem C99_always_offered_refuted : names (exec false node0 (two ++ [Destroy 0])) = Some None.
Proof. vm_compute. reflexivity. Qed.
(** in Python a discarded buffer goes on answering for the node, *)
Theorem C99_discarded_buffer_answers_refuted : names (exec true node0 (two ++ [Destroy 0])) = Some (Some ["base"]).
Proof. vm_compute. reflexivity. Qed.
(** and of two constructors in two Python threads one can raise; in C++ one is without the service. *)
Definition race : list (event D64) := [Begin 0 true 100%Z; Begin 1 true 100%Z; Finish 0; Finish 1].
Theorem C99_constructor_can_raise_refuted :
  option_map n_raised (exec true node0 race) = Some [1%nat] /\ option_map n_raised (exec false node0 race) = Some [].
Proof. split; vm_compute; reflexivity. Qed.
Print Assumptions C99_constructor_can_raise_refuted.
