(** * Properties C90: how much a buffer keeps *)
From Coq Require Import ZArith Bool List String Lia.
From Verif Require Import RosTime Scalar LinearMath Cache SpecCache BufferCore SpecCore Instances CoreInv CoreSet LookupBase LookupTheorems History ExampleBuffers
  Requests SpecRequests RequestProofs RequestHistory PropsRequests SpecMemory MemoryProofs.
Import ListNotations.
Open Scope Z_scope.
Local Open Scope list_scope.
Local Opaque MAX_GRAPH_DEPTH.

(** ** C90 *)
(** One frame keeps at most one sample per [d] nanoseconds of cache time, and one more, if the
    stamps of its messages lie at least [d] apart, in whatever order they arrive. *)
Theorem C90_one_frame :
  forall (S : Scalar) ct (ops : list (core_op S)) d n, 0 <= ct < dur_bound -> Forall op_ok ops -> 0 < d -> spaced d ops ->
  Z.of_nat (kept (run (init_core ct) ops) n) <= ct / d + 1.
Proof. exact (fun S => @kept_bound S). Qed.
Print Assumptions C90_one_frame.

(** All frames together: that much for every different child name ever used. *)
Theorem C90_all_frames :
  forall (S : Scalar) ct (ops : list (core_op S)) d, 0 <= ct < dur_bound -> Forall op_ok ops -> 0 < d -> spaced d ops ->
  Z.of_nat (kept_in_all (run (init_core ct) ops)) <= Z.of_nat (different (children ops)) * (ct / d + 1).
Proof. exact (fun S => @kept_in_all_bound S). Qed.
Print Assumptions C90_all_frames.

(** With no assumption on the messages at all: a sample per nanosecond of cache time. *)
Theorem C90_any_traffic :
  forall (S : Scalar) ct (ops : list (core_op S)), 0 <= ct < dur_bound -> Forall op_ok ops ->
  (forall n, Z.of_nat (kept (run (init_core ct) ops) n) <= ct + 1) /\
  Z.of_nat (kept_in_all (run (init_core ct) ops)) <= Z.of_nat (different (children ops)) * (ct + 1).
Proof.
  intros S ct ops Hct Hok. assert (Sp : spaced 1 ops) by (intros n x y _ _; lia). split.
  - intros n. pose proof (kept_bound ct ops 1 n Hct Hok ltac:(lia) Sp) as H. rewrite Z.div_1_r in H. exact H.
  - pose proof (kept_in_all_bound ct ops 1 Hct Hok ltac:(lia) Sp) as H. rewrite Z.div_1_r in H. exact H.
Qed.
Print Assumptions C90_any_traffic.

(** The frames known are exactly as many as the different names in usable messages: refused
    messages and queries add none. *)
Theorem C90_number_of_frames :
  forall (S : Scalar) ct (ops : list (core_op S)), 0 <= ct < dur_bound -> Forall op_ok ops ->
  List.length (getFrameStrings (run (init_core ct) ops)) = different (named ops).
Proof. exact (fun S => @frames_count S). Qed.
Print Assumptions C90_number_of_frames.

(** clear() gives back every sample of a time-varying frame, but no frame and no static sample. *)
Theorem C90_clear :
  forall (S : Scalar) (s : core S), reachable s ->
  getFrameStrings (clear s) = getFrameStrings s /\
  forall n, match hist s n with Some (Dynamic _ _) => kept (clear s) n = 0%nat | _ => kept (clear s) n = kept s n end.
Proof. exact (fun S => @clear_frees S). Qed.
Print Assumptions C90_clear.

(** The bounds are reached. *)
Definition packed : list (core_op D64) :=
  [ dyn "p" "x" 10 (v64 0 0 0) id64; dyn "p" "x" 13 (v64 0 0 0) id64; dyn "p" "x" 12 (v64 0 0 0) id64;
    dyn "p" "x" 12 (v64 0 0 0) id64; dyn "p" "x" 11 (v64 0 0 0) id64; dyn "x" "y" 5 (v64 0 0 0) id64; sta "y" "z" 0 (v64 0 0 0) id64;
    dyn "q" "q" 12 (v64 0 0 0) id64; dyn "x" "y" 8 (v64 0 0 0) id64; dyn "x" "y" 7 (v64 0 0 0) id64; dyn "x" "y" 6 (v64 0 0 0) id64 ].
Example C90_example :
  Forall op_ok packed /\ spaced 1 packed /\
  kept (run (init_core 3) packed) "x" = 4%nat /\ kept_in_all (run (init_core 3) packed) = 9%nat /\
  different (children packed) = 3%nat /\ different (named packed) = 4%nat /\ List.length (getFrameStrings (run (init_core 3) packed)) = 4%nat.
Proof.
  split; [repeat (constructor; [cbn; unfold valid_time; cbn; lia|]); constructor|]. split; [intros n x y _ _; lia|].
  repeat split; vm_compute; reflexivity.
Qed.

(** ** What is not bounded *)
(** Requests for frames that never appear wait for ever: any number of them can be pending in a
    buffer that has never had a transform, and clear() removes none of them. *)
Theorem C90_pending_requests_refuted :
  forall (S : Scalar) (k : nat), Z.of_nat k < 2 ^ 64 - 3 -> exists b : buf S,
    req_reachable b /\ b_core b = init_core 100 /\ List.length (pending b) = k /\
    forall p, In p (pending b) -> p_target p = "here"%string /\ p_source p = "nowhere"%string /\ p_time p = 1.
Proof.
  intros S k Hk. change (2 ^ 64 - 3) with (uint64 - 3) in Hk.
  cut (exists b : buf S, req_reachable b /\ b_core b = init_core 100 /\ b_rq_counter b = Z.of_nat k /\ List.length (pending b) = k /\
    forall p, In p (pending b) -> p_target p = "here"%string /\ p_source p = "nowhere"%string /\ p_time p = 1).
  { intros (b & A & B & _ & C). exists b. auto. }
  induction k as [|k IH].
  - exists (init_buf 100). split; [apply rr_init; unfold dur_bound; lia|]. split; [reflexivity|]. split; [reflexivity|]. split; [reflexivity|]. intros p [].
  - destruct IH as (b & R & Ec & En & El & Ep); [lia|].
    destruct (reach_binv b R) as [I _].
    pose proof (add_answers b 0 "here" "nowhere" 1 I) as H. rewrite Ec, En in H.
    assert (V1 : valid_time 1) by (unfold valid_time, time_bound; lia). assert (V2 : 1 + c_cache_time (init_core 100 : core S) < time_bound) by (unfold time_bound; cbn [init_core c_cache_time]; lia).
    specialize (H ltac:(lia) V1 V2).
    change (("here" =? "nowhere")%string || available (init_core 100 : core S) "here" "nowhere" 1)%bool with false in H. cbv iota in H.
    change (expired (init_core 100 : core S) (mkPreq 0 0 "here" "nowhere" 1)) with false in H. cbv zeta iota in H.
    destruct H as (b' & E & Ec' & _ & P').
    assert (Eb : fst (fst (req_step b (RAddRequest 0 "here" "nowhere" 1))) = b') by (cbn [req_step]; rewrite E; reflexivity).
    assert (Cn : b_rq_counter b' = Z.of_nat k + 1).
    { pose proof E as E2. unfold addTransformableRequest in E2.
      destruct (add_check (b_core b) "here" "nowhere" 1) as [[h|tn sn]| |]; try discriminate E2.
      - exfalso. injection E2 as E3 _. rewrite <- E3 in P'.
        assert (L : List.length (pending b ++ [mkPreq (Z.of_nat k + 1) 0 "here" "nowhere" 1]) = List.length (pending b)) by (f_equal; symmetry; exact P').
        rewrite app_length in L. cbn [List.length] in L. lia.
      - unfold push_request in E2. cbv zeta in E2. injection E2 as E3 _. rewrite <- E3. cbn [b_rq_counter]. rewrite En.
        apply Z.mod_small. lia. }
    exists b'. split; [|split; [|split; [|split]]].
    + rewrite <- Eb. apply rr_step; [exact R| |rewrite Eb, Cn; lia]. 
      cbn [req_op_ok]. split; [unfold uint32; lia|exact V1].
    + exact Ec'.
    + rewrite Cn. lia.
    + rewrite P', app_length, El. cbn [List.length]. lia.
    + intros p Hp. rewrite P' in Hp. apply in_app_or in Hp. destruct Hp as [Hp|[<-|[]]]; [exact (Ep p Hp)|]. cbn [p_target p_source p_time]. auto.
Qed.
Print Assumptions C90_pending_requests_refuted.

(** What is pending before clear() is pending after it. *)
Theorem C90_clear_keeps_requests :
  forall (S : Scalar) (b : buf S), req_reachable b -> pending (fst (fst (req_step b RClear))) = pending b.
Proof.
  intros S b R. cbn [req_step fst]. unfold pending. cbn [with_core b_core b_reqs]. apply map_ext. intros r. reflexivity.
Qed.
Print Assumptions C90_clear_keeps_requests.
