(** * C80: the message filter under every schedule of its threads *)
From Coq Require Import ZArith Bool List String Lia Permutation.
From Verif Require Import RosTime Scalar LinearMath Cache SpecCache BufferCore SpecCore Requests SpecRequests RequestProofs RequestHistory
  MessageFilter SpecFilter FilterProofs FilterThreads SpecFilterThreads FilterThreadProofs FilterThreadReady FilterThreadProgress FilterThreadAlone
  Instances ExampleBuffers.
Import ListNotations.
Open Scope string_scope.
Open Scope list_scope.
Open Scope Z_scope.

(** Whatever runs concurrently -- calls of add(), of setTransform with their callbacks, of clear()
    and of the setters, and other clients of the buffer -- no message gets two verdicts, and every
    verdict is about the message that was added. *)
Theorem C80_at_most_one_verdict :
  forall (S : Scalar) (b : buf S) target q z0 ops, new_threaded b target q = Some z0 ->
  NoDup (map o_seq (z_emitted (frun z0 ops))) /\
  forall o, In o (z_emitted (frun z0 ops)) -> nth_error (adds_of ops) (o_seq o) = Some (o_frame o, o_stamp o).
Proof.
  intros S b target q z0 ops H. pose proof (inv_run ops z0 (inv_init b target q z0 H)) as V. split; [apply emitted_once; exact V|].
  intros o Ho. pose proof (v_out _ V o Ho) as K. rewrite run_added in K.
  assert (E : z_added z0 = []) by (unfold new_threaded in H; destruct (addTransformableCallback b) as [b' [h|]]; inversion H; reflexivity).
  rewrite E in K. exact K.
Qed.
Print Assumptions C80_at_most_one_verdict.

(** No message is forgotten: at every moment of every schedule each added message is in exactly one
    place: in the hands of an add() still running, in the queue, reported, or lost. *)
Theorem C80_no_message_forgotten :
  forall (S : Scalar) (b : buf S) target q z0 ops, new_threaded b target q = Some z0 ->
  let z := frun z0 ops in
  Permutation (map mi_seq (flat_map in_hands (z_threads z)) ++ map mi_seq (z_msgs z) ++ map o_seq (z_emitted z) ++ map fst (z_lost z))
    (seq 0 (List.length (adds_of ops))).
Proof.
  intros S b target q z0 ops H z. pose proof (inv_run ops z0 (inv_init b target q z0 H)) as V. pose proof (census_perm _ V) as P. fold z in P.
  assert (E : z_added z = adds_of ops).
  { unfold z. rewrite run_added. unfold new_threaded in H. destruct (addTransformableCallback b) as [b' [h|]]; inversion H; reflexivity. }
  rewrite E in P. exact P.
Qed.
Print Assumptions C80_no_message_forgotten.

(** ... and messages are lost only to clear(), to having no target frames, or to an exception. *)
Lemma step_lost : forall (S : Scalar) (z : fstate S) n read k r, In (k, r) (z_lost (thread_step z n read)) -> In (k, r) (z_lost z) \/ r = Threw.
Proof.
  intros S z n read k r. unfold thread_step. destruct (nth_error (z_threads z) n) as [th|]; [|auto].
  assert (A : forall i tgt second rest h, z_lost (answered z n i tgt second rest h) = z_lost z).
  { intros. unfold answered, next_target. destruct (note_answer _ _) as [[? ?]|]; [|reflexivity]. destruct (negb second && _)%bool; [reflexivity|]. destruct rest; reflexivity. }
  assert (L : forall i, In (k, r) (z_lost (lose (goto z n Gone) [(mi_seq i, Threw)])) -> In (k, r) (z_lost z) \/ r = Threw).
  { intros i H. proj. apply in_app_iff in H as [H|[H|[]]]; [auto|]. injection H as _ <-. auto. }
  destruct th as [i|i tgt second rest|i tgt second rest ck|i|i| |evs|i evs|i checks evs|i can evs| |]; auto.
  - destruct (z_flock z); [auto|]. unfold next_target. destruct (z_targets z); auto.
  - destruct (if second then lift_time _ else _) as [t| |]; try apply L. destruct (add_check _ _ _ _) as [[h|x y]| |]; try apply L; [rewrite A; auto|auto].
  - destruct (push_request _ _ _ _ _ _ _) as [b h]. unfold answered, next_target. destruct (note_answer _ _) as [[? ?]|]; [|auto]. destruct (negb second && _)%bool; [auto|]. destruct rest; auto.
  - destruct (Nat.eqb _ _); auto.
  - destruct (z_mlock z); [auto|]. unfold queue. destruct (negb _ && _)%bool; [|auto]. destruct (z_msgs (goto z n Gone)); auto.
  - destruct (testTransformableRequests _); auto.
  - destruct evs as [|e evs]; [auto|]. destruct (negb _); [auto|]. destruct (z_mlock z); [auto|]. destruct (find_info _ _) as [[[? ?] ?]|]; [|auto]. destruct (Nat.ltb _ _); [auto|]. destruct read; auto.
  - destruct (z_flock z); auto.
  - destruct checks as [|[tgt second] cs]; [auto|]. destruct (if second then lift_time _ else _) as [t| |]; auto. destruct (canTransform _ _ _ _ _) as [[[|] ?]| |]; auto. destruct (negb second && _)%bool; auto.
Qed.
Lemma step_targets : forall (S : Scalar) (z : fstate S) n read, z_targets (thread_step z n read) = z_targets z.
Proof.
  intros S z n read. destruct (nth_error (z_threads z) n) as [old|] eqn:Hn; [|unfold thread_step; rewrite Hn; reflexivity].
  destruct (step_cases z n read old Hn) as [[_ ->]|[_ [H _]]]; [reflexivity|assumption].
Qed.
Theorem C80_losses_explained :
  forall (S : Scalar) (b : buf S) target q z0 ops k r, new_threaded b target q = Some z0 -> In (k, r) (z_lost (frun z0 ops)) ->
  match r with Cleared => In FClear ops | NoTargets => In (FSetTargets []) ops | Threw => True end.
Proof.
  intros S b target q z0 ops k r H.
  enough (G : (z_targets (frun z0 ops) = [] -> In (FSetTargets []) ops) /\
    (In (k, r) (z_lost (frun z0 ops)) -> match r with Cleared => In FClear ops | NoTargets => In (FSetTargets []) ops | Threw => True end)) by apply G.
  induction ops as [|a ops IH] using rev_ind.
  - unfold new_threaded in H. destruct (addTransformableCallback b) as [b' [h|]]; inversion H; subst. split; [discriminate|intros []].
  - rewrite frun_app. cbn [frun]. destruct IH as [T L]. set (z := frun z0 ops) in *.
    assert (T' : z_targets z = [] -> In (FSetTargets []) (ops ++ [a])) by (intros X; apply in_app_iff; auto).
    assert (L' : In (k, r) (z_lost z) -> match r with Cleared => In FClear (ops ++ [a]) | NoTargets => In (FSetTargets []) (ops ++ [a]) | Threw => True end).
    { intros X. specialize (L X). destruct r; rewrite ?in_app_iff; auto. }
    destruct a as [frame stamp|n read|m au st|l|d|qs| | | |cb|cb tgt src t|h]; cbn [fact].
    + destruct (z_targets z) eqn:E; [|destruct (String.eqb _ _); proj; split; assumption].
      proj. split; [assumption|]. intros X. apply in_app_iff in X as [X|[X|[]]]; [exact (L' X)|]. injection X as _ <-. apply T'. reflexivity.
    + rewrite step_targets. split; [assumption|]. intros X. apply step_lost in X as [X| ->]; [exact (L' X)|exact I].
    + destruct (setTransform _ _ _ _) as [s' [[|]| |]]; proj; split; assumption.
    + destruct (z_flock z); [split; assumption|]. proj. split; [|assumption]. intros X. destruct l; [|discriminate]. apply in_app_iff. right. left. reflexivity.
    + destruct (z_flock z); proj; split; assumption.
    + proj. split; assumption.
    + destruct (z_mlock z); [split; assumption|]. destruct (addTransformableCallback _). proj. split; [assumption|]. intros X. apply in_app_iff in X as [X|X]; [exact (L' X)|].
      apply in_map_iff in X as (i & X & _). injection X as _ <-. apply in_app_iff. right. left. reflexivity.
    + proj. split; assumption.
    + proj. split; assumption.
    + proj. split; assumption.
    + proj. split; assumption.
    + proj. split; assumption.
Qed.
Print Assumptions C80_losses_explained.

(** The queue never holds more messages than the largest queue size ever set, if none was 0
    ("unbounded"), however many threads add at once. *)
Theorem C80_queue_bounded :
  forall (S : Scalar) (b : buf S) target q z0 ops Q, new_threaded b target q = Some z0 -> (0 < q <= Q)%nat -> Forall (queue_size_within Q) ops ->
  (List.length (z_msgs (frun z0 ops)) <= Q)%nat.
Proof.
  intros S b target q z0 ops Q H B F. assert (E : z_qsize z0 = q /\ z_msgs z0 = []) by (unfold new_threaded in H; destruct (addTransformableCallback b) as [b' [h|]]; inversion H; auto).
  destruct E as [E1 E2]. apply run_len; [rewrite E1; exact B|rewrite E2; cbn; lia|exact F].
Qed.
Print Assumptions C80_queue_bounded.

(** A message reported ready was transformable: for each target frame, and each of the times the
    tolerance asks for, there was a moment between its add() and its verdict at which the transform
    could be had.  (From any quiet moment of any schedule, as long as frames and tolerance are left
    alone.) *)
Theorem C80_ready_was_transformable :
  forall (S : Scalar) (z : fstate S) ops o tgt t, ft_reachable z -> quiet z -> Forall not_reconfiguring ops ->
  In o (z_emitted (frun z ops)) -> o_outcome o = Ready -> (List.length (z_added z) <= o_seq o)%nat ->
  In tgt (z_targets z) -> needed_times (z_tol z) (o_stamp o) t ->
  exists zz, In zz (trace z ops) /\ being_handled zz (o_seq o) /\ could_use zz tgt (mf_stripSlash (o_frame o)) t.
Proof. intros S z ops o tgt t R Q F H1 H2 H3 H4 H5. eapply ready_justified; try eassumption. apply inv_reachable. assumption. Qed.
Print Assumptions C80_ready_was_transformable.

(** No deadlock: as long as a call is in progress some thread can make a step. *)
Theorem C80_no_deadlock :
  forall (S : Scalar) (z : fstate S), ft_reachable z -> ~ quiet z -> exists n, forall read, fact z (FGo n read) <> z.
Proof.
  intros S z R Q. destruct (progress_step z (inv_reachable z R) Q) as (n & H). exists n. intros read E. specialize (H read). cbn [fact] in E. rewrite E in H.
  unfold lighter in H. lia.
Qed.
Print Assumptions C80_no_deadlock.

(** No livelock: however the threads are scheduled, without new calls a moment comes at which the
    chosen thread has nothing to do; and from every reachable state all calls can be finished. *)
Theorem C80_no_livelock :
  forall (S : Scalar) (s : nat -> fstate S) (pick : nat -> nat * transformable_result),
  (forall k, s (Datatypes.S k) = fact (s k) (FGo (fst (pick k)) (snd (pick k)))) -> exists k, s (Datatypes.S k) = s k.
Proof. intros S. apply no_livelock. Qed.
Print Assumptions C80_no_livelock.
Theorem C80_calls_can_finish :
  forall (S : Scalar) (z : fstate S), ft_reachable z -> exists ops, Forall only_goes ops /\ quiet (frun z ops).
Proof. intros S z R. apply can_finish. apply inv_reachable. assumption. Qed.
Print Assumptions C80_calls_can_finish.

(** A call that runs alone does exactly what C46 to C48 and C57 say of it. *)
Theorem C80_add_alone_is_sequential :
  forall (S : Scalar) (z : fstate S) frame stamp, ft_reachable z -> quiet z ->
  exists ops, goes (List.length (z_threads z)) ops /\
    let z' := frun z (FAdd frame stamp :: ops) in abs z' = fst (mf_add (abs z) frame stamp) /\ quiet z'.
Proof.
  intros S z frame stamp R Q. pose proof (inv_reachable z R) as V.
  assert (M : forall p, p Gone = false -> many p (z_threads z) = 0%nat).
  { intros p P. unfold many. assert (X : forall l, (forall th, In th l -> th = Gone) -> filter p l = []); [|rewrite X; [reflexivity|exact Q]].
    induction l as [|a l IH]; intros Y; [reflexivity|]. cbn. rewrite (Y a (or_introl eq_refl)), P. apply IH. intros th Hth. apply Y. right. assumption. }
  assert (Lm : z_mlock z = false) by (pose proof (v_m z V) as K; rewrite M in K by reflexivity; destruct (z_mlock z); [discriminate|reflexivity]).
  assert (Lf : z_flock z = false) by (pose proof (v_f z V) as K; rewrite M in K by reflexivity; destruct (z_flock z); [discriminate|reflexivity]).
  destruct (add_alone z frame stamp Lm Lf) as (ops & G & E & _ & _ & T). exists ops. split; [assumption|]. split; [exact E|].
  intros th Hth. destruct T as [T|T]; rewrite T in Hth; [apply Q; assumption|]. apply in_app_iff in Hth as [Hth|[<-|[]]]; [apply Q; assumption|reflexivity].
Qed.
Print Assumptions C80_add_alone_is_sequential.
Theorem C80_transform_alone_is_sequential :
  forall (S : Scalar) (z : fstate S) m au st read, ft_reachable z -> quiet z -> z_own z = [z_cb z] ->
  exists ops, goes (List.length (z_threads z)) ops /\
    let z' := frun z (FInsert m au st :: ops) in abs z' = fst (mf_set_transform (abs z) m au st read) /\ quiet z'.
Proof.
  intros S z m au st read R Q Ow. pose proof (inv_reachable z R) as V.
  assert (M : forall p, p Gone = false -> many p (z_threads z) = 0%nat).
  { intros p P. unfold many. assert (X : forall l, (forall th, In th l -> th = Gone) -> filter p l = []); [|rewrite X; [reflexivity|exact Q]].
    induction l as [|a l IH]; intros Y; [reflexivity|]. cbn. rewrite (Y a (or_introl eq_refl)), P. apply IH. intros th Hth. apply Y. right. assumption. }
  assert (Lm : z_mlock z = false) by (pose proof (v_m z V) as K; rewrite M in K by reflexivity; destruct (z_mlock z); [discriminate|reflexivity]).
  assert (Lf : z_flock z = false) by (pose proof (v_f z V) as K; rewrite M in K by reflexivity; destruct (z_flock z); [discriminate|reflexivity]).
  destruct (transform_alone z m au st read V Lm Lf Ow) as (ops & G & E & _ & _ & T). exists ops. split; [assumption|]. split; [exact E|].
  intros th Hth. destruct T as [T|T]; rewrite T in Hth; [apply Q; assumption|]. apply in_app_iff in Hth as [Hth|[<-|[]]]; [apply Q; assumption|reflexivity].
Qed.
Print Assumptions C80_transform_alone_is_sequential.

(** ** examples *)
Definition fresh (target : string) (q : nat) : fstate D64 :=
  match new_threaded (@init_buf D64 100) target q with Some z => z | None => mkFS (@init_buf D64 100) 0 [] [] 0 0 0 [] false false [] [] [] [] end.
Lemma fresh_reach : forall target q ops, ft_reachable (frun (fresh target q) ops).
Proof. intros target q ops. exists (@init_buf D64 100), target, q, (fresh target q), ops. split; reflexivity. Qed.
Definition idle (th : thread) : bool := match th with Gone => true | _ => false end.
Lemma quiet_by : forall z : fstate D64, forallb idle (z_threads z) = true -> quiet z.
Proof. intros z E th I. rewrite forallb_forall in E. specialize (E th I). destruct th; try discriminate E; reflexivity. Qed.
Lemma busy_by : forall z : fstate D64, forallb idle (z_threads z) = false -> ~ quiet z.
Proof. intros z E Q. assert (F : forallb idle (z_threads z) = true); [|congruence]. apply forallb_forall. intros th I. rewrite (Q th I). reflexivity. Qed.
Lemma never_by : forall l tgt src t, forallb (fun zz : fstate D64 => negb (String.eqb tgt src) && negb (available (b_core (z_buf zz)) tgt src t))%bool l = true ->
  Forall (fun zz => ~ could_use zz tgt src t) l.
Proof.
  intros l tgt src t E. apply Forall_forall. intros zz I [X|X]; rewrite forallb_forall in E; specialize (E zz I); apply andb_true_iff in E as [E1 E2].
  - rewrite X, String.eqb_refl in E1. discriminate E1.
  - rewrite X in E2. discriminate E2.
Qed.
Definition go (n : nat) : faction D64 := FGo n TransformAvailable.
Definition put (child : string) (t : time) : faction D64 := FInsert (msg "map" child t (v64 1 0 0) id64) "me" false.
Definition seen (z : fstate D64) := map (fun o => (o_seq o, o_frame o, o_stamp o, o_outcome o)) (z_emitted z).

(** Two threads add messages while a third inserts the transforms they wait for: the callbacks of
    the second transform run while message 1 is still being added; message 0 is reported, message 1
    is reported by its own add(). *)
Definition busy : list (faction D64) :=
  [put "laser" 10; go 0; go 0; FAdd "laser" 50; go 1; go 1; go 1; go 1; go 1; FAdd "laser" 60; put "laser" 70; go 2; go 3; go 3; go 3; go 2; go 3; go 3; go 2; go 3].
Example C80_example :
  let z := frun (fresh "map" 5) busy in
  ft_reachable z /\ seen z = [(1%nat, "laser", 60, Ready); (0%nat, "laser", 50, Ready)] /\ map mi_seq (z_msgs z) = [] /\
  Forall not_reconfiguring busy /\ Forall (queue_size_within 5) busy.
Proof.
  intros z. split; [apply fresh_reach|]. split; [vmr|]. split; [vmr|]. split; unfold busy, put, go; repeat constructor.
Qed.
(** at some moment both a lock holder and a waiting thread exist *)
Example C80_example_busy :
  let z := frun (fresh "map" 5) (firstn 14 busy) in
  z_mlock z = true /\ ~ quiet z.
Proof. intros z. split; [vmr|]. apply busy_by. vmr. Qed.

(** With setTargetFrames in another thread the guarantee fails: two target frames are asked for,
    only the message's own frame is available, setTargetFrames({map}) comes in between, and the
    message is reported ready although "map" was never heard of. *)
Theorem C80_reconfiguration_race_refuted :
  let z0 := frun (fresh "map" 5) [FSetTargets ["map"; "laser"]; go 0] in
  let ops := [FAdd "laser" 50; go 1; go 1; go 1; go 1; FSetTargets ["map"]; go 2; go 1] in
  quiet (frun z0 ops) /\ seen (frun z0 ops) = [(0%nat, "laser", 50, Ready)] /\ z_targets (frun z0 ops) = ["map"] /\
  Forall (fun zz => ~ could_use zz "map" "laser" 50) (trace z0 ops).
Proof.
  intros z0 ops. split; [apply quiet_by; vmr|]. split; [vmr|]. split; [vmr|]. apply never_by. vmr.
Qed.
Print Assumptions C80_reconfiguration_race_refuted.

(** clear() does not reach a message whose add() is still running: it is queued afterwards, under
    the callback clear() has unregistered, and stays there although its transform is available. *)
Theorem C80_clear_strands_running_add_refuted :
  let z := frun (fresh "map" 5) [FAdd "laser" 50; go 0; go 0; FClear; go 0; go 0; go 0; put "laser" 10; go 1; go 1; put "laser" 70; go 2; go 2] in
  quiet z /\ map mi_seq (z_msgs z) = [0%nat] /\ seen z = [] /\ z_lost z = [] /\ List.length (pending (z_buf z)) = 0%nat /\
  available (b_core (z_buf z)) "map" "laser" 50 = true.
Proof. intros z. split; [apply quiet_by; vmr|]. repeat split; vmr. Qed.
Print Assumptions C80_clear_strands_running_add_refuted.
