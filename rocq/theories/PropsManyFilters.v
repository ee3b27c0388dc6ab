(** * C84: several message filters on one buffer *)
From Coq Require Import ZArith Bool List String Lia Permutation.
From Verif Require Import RosTime Scalar LinearMath Cache SpecCache BufferCore SpecCore Instances CoreInv CoreSet
  LookupBase LookupTheorems History ExampleBuffers Requests SpecRequests RequestProofs RequestHistory PropsRequests
  MessageFilter SpecFilter FilterProofs FilterCalm PropsFilter ManyFilters SpecManyFilters ManyProofs ManyHistory.
Import ListNotations.
Open Scope string_scope.
Open Scope list_scope.
Open Scope Z_scope.
Local Opaque MAX_GRAPH_DEPTH.

(** ** C84 *)
(** Whatever the other filters and clients do, each filter goes through a history it could have
    gone through alone: the step of the world is for it its own call, the transform, or calls by
    other clients of the buffer. *)
Theorem C84_each_filter_as_if_alone :
  forall (S : Scalar) T (w : world S) o, w_calm T w -> w_calm_op T w o ->
  b_rq_counter (w_buf (w_step w o)) < 2 ^ 32 -> Z.of_nat (List.length (b_cbs (w_buf (w_step w o)))) < 2 ^ 32 - 1 ->
  forall k f f', seen w k = Some f -> seen (w_step w o) k = Some f' -> exists ops, alone k o ops /\ mf_run f ops = f'.
Proof. intros S T w o C Co H1 H2. apply (step_all T w o (calm_winv T w C) Co). split; assumption. Qed.
Print Assumptions C84_each_filter_as_if_alone.

(** So everything said of a single filter (C46, C47, C48, C57) holds of each of them. *)
Theorem C84_each_filter_is_a_filter :
  forall (S : Scalar) T (w : world S) k f, w_calm T w -> seen w k = Some f -> calm T f /\ mf_reachable f /\ f_buf f = w_buf w.
Proof.
  intros S T w k f C H. pose proof (wi_calm T w (calm_winv T w C) k f H) as Cf. split; [exact Cf|]. split; [eapply calm_reach; exact Cf|eapply seen_buf; exact H].
Qed.
Print Assumptions C84_each_filter_is_a_filter.

(** What other filters and clients do leaves a filter's queue, settings, verdicts and pending
    requests as they are. *)
Lemma moves_keep : forall (S : Scalar) cb (b b' : buf S), moves cb b b' -> req_reachable b -> forall p, p_cb p <> cb -> In p (pending b) <-> In p (pending b').
Proof.
  intros S cb b b' M. induction M as [b|b o b' B Hc Hs M IH]; intros R p Np; [tauto|].
  rewrite <- (IH (next_reach b o R (proj1 Hc) Hs) p Np). destruct (next_fact b o R (proj1 Hc)) as (N & _). split.
  - intros Hp. unfold next. destruct o as [m au st| | |c|c tgt src t|h]; cbn [by_ req_step fst] in *; try contradiction.
    + unfold addTransformableCallback. destruct (next_cb_handle _ _ _); exact Hp.
    + subst c. unfold pending in *. cbn [removeTransformableCallback b_core b_reqs]. apply in_map_iff in Hp as (r & <- & Hr). apply in_map. apply filter_In. split; [exact Hr|]. apply negb_true_iff, Z.eqb_neq. exact Np.
    + unfold addTransformableRequest. destruct (add_check _ _ _ _) as [[h|x y]| |]; try exact Hp. unfold pending. cbn [push_request fst b_core b_reqs]. rewrite map_app. apply in_app_iff. left. exact Hp.
    + unfold pending in *. cbn [cancelTransformableRequest b_core b_reqs]. apply in_map_iff in Hp as (r & <- & Hr). apply in_map. apply filter_In. split; [exact Hr|]. apply negb_true_iff, Z.eqb_neq.
      intros E. apply Np. apply (B r Hr E).
  - intros Hp. destruct (N p Hp) as [X|X]; [exact X|]. subst o. cbn [by_] in B. contradiction.
Qed.
Theorem C84_others_leave_a_filter_alone :
  forall (S : Scalar) T (w : world S) o k f, w_calm T w -> w_calm_op T w o ->
  b_rq_counter (w_buf (w_step w o)) < 2 ^ 32 -> Z.of_nat (List.length (b_cbs (w_buf (w_step w o)))) < 2 ^ 32 - 1 ->
  (exists t q c, o = WNew t q c) \/ (exists j, j <> k /\ (o = WDestroy j \/ exists x, o = WDo j x)) -> seen w k = Some f ->
  seen (w_step w o) k = Some (with_buf f (w_buf (w_step w o))) /\
  forall p, p_cb p = f_cb f -> In p (pending (w_buf w)) <-> In p (pending (w_buf (w_step w o))).
Proof.
  intros S T w o k f C Co H1 H2 Ho Hf. pose proof (calm_winv T w C) as I. pose proof (wi_reach T w I) as R.
  assert (Id : with_buf f (w_buf w) = f) by (rewrite <- (seen_buf _ _ _ Hf); apply with_buf_id).
  assert (Triv : w_step w o = w -> seen (w_step w o) k = Some (with_buf f (w_buf (w_step w o))) /\ forall p, p_cb p = f_cb f -> In p (pending (w_buf w)) <-> In p (pending (w_buf (w_step w o)))).
  { intros ->. rewrite Id. split; [exact Hf|tauto]. }
  destruct Ho as [(t & q & c & ->)|(j & Nj & [->|(x & ->)])]; cbn [w_step] in *.
  - unfold w_new in *. destruct (new_filter (w_buf w) t q c) as [f0|] eqn:En; [|apply Triv; reflexivity]. cbn [w_buf] in *. split.
    + unfold seen in *. cbn [w_filters w_buf]. rewrite nth_error_app1 by (eapply seen_lt; unfold seen; exact Hf). destruct (nth_error (w_filters w) k) as [[g|]|]; inversion Hf; subst. reflexivity.
    + intros p _. unfold new_filter in En. destruct (addTransformableCallback (w_buf w)) as [b' [h|]] eqn:Ea; [|discriminate En]. injection En as En. subst f0. cbn [f_buf setTargetFrames].
      unfold addTransformableCallback in Ea. destruct (next_cb_handle _ _ _); [|discriminate Ea]. injection Ea as Ea _. subst b'. unfold pending. cbn [b_core b_reqs]. tauto.
  - unfold w_destroy in *. destruct (seen w j) as [f0|] eqn:Sj; [|apply Triv; reflexivity]. cbn [w_buf] in *.
    assert (Nc : f_cb f <> f_cb f0) by (apply (wi_apart T w I k j f f0); [congruence|assumption|assumption]).
    assert (Mv : moves (f_cb f0) (w_buf w) (f_buf (mf_clear f0))) by (rewrite <- (seen_buf _ _ _ Sj); apply (moves_clear T f0 (wi_quiet T w j f0 I Sj)), roomy_small; split; assumption).
    split; [|intros p Hp; apply (moves_keep S _ _ _ Mv R); congruence].
    unfold seen in *. cbn [w_filters w_buf]. rewrite set_nth_other by congruence. destruct (nth_error (w_filters w) k) as [[g|]|]; inversion Hf; subst. reflexivity.
  - destruct (own_call x) eqn:Ow; [|apply Triv; reflexivity]. destruct (seen w j) as [f0|] eqn:Sj; [|apply Triv; reflexivity]. cbn [put w_buf] in *.
    assert (Nc : f_cb f <> f_cb f0) by (apply (wi_apart T w I k j f f0); [congruence|assumption|assumption]).
    assert (Mv : moves (f_cb f0) (w_buf w) (f_buf (mf_step f0 x))) by (rewrite <- (seen_buf _ _ _ Sj); apply (moves_own T f0 x (wi_quiet T w j f0 I Sj) Ow (Co f0 Sj)), roomy_small; split; assumption).
    split; [|intros p Hp; apply (moves_keep S _ _ _ Mv R); congruence].
    change (seen (put w j (mf_step f0 x)) k = Some (with_buf f (f_buf (mf_step f0 x)))). rewrite seen_put_other by congruence. rewrite Hf. reflexivity.
Qed.
Print Assumptions C84_others_leave_a_filter_alone.

(** An accepted transform reaches every filter: setTransform answers what it would without
    filters (no callback throws, none of a destroyed filter is called), and afterwards no filter
    holds a message all of whose transforms are available. *)
Theorem C84_transform_reaches_every_filter :
  forall (S : Scalar) T (w : world S) m authority st read, w_calm T w -> valid_time (tm_stamp m) ->
  let r := w_set_transform w m authority st read in
  b_rq_counter (w_buf (fst r)) < 2 ^ 32 -> Z.of_nat (List.length (b_cbs (w_buf (fst r)))) < 2 ^ 32 - 1 ->
  snd r = snd (setTransform (b_core (w_buf w)) m authority st) /\
  (forall k f, seen w k = Some f -> seen (fst r) k = Some (fst (mf_set_transform f m authority st read))) /\
  (snd r = Ok true -> forall k f, seen (fst r) k = Some f -> forall i, In i (f_msgs f) ->
     exists tgt t, In tgt (f_targets f) /\ needed_times (f_tol f) (mi_stamp i) t /\ tgt <> stripSlash (mi_frame i) /\
       available (b_core (w_buf (fst r))) tgt (stripSlash (mi_frame i)) t = false).
Proof.
  intros S T w m a st read C Hv. cbn zeta. intros H1 H2. pose proof (calm_winv T w C) as I.
  destruct (step_transform T w m a st read I Hv) as (I' & _ & E & _ & _ & Sw); [split; assumption|]. split; [exact E|]. split.
  - intros k f Hf. rewrite Sw, Hf. reflexivity.
  - intros Ok0 k f Hf i Hi. pose proof Hf as Hf2. rewrite Sw in Hf2. destruct (seen w k) as [g|] eqn:Hg; [|discriminate Hf2]. cbn [option_map] in Hf2. injection Hf2 as Hf2. cbn [mf_step] in Hf2.
    destruct (C48_nothing_transformable_stays_queued S T g m a st read (wi_calm T w I k g Hg) Hv) as (_ & N). rewrite (seen_buf _ _ _ Hg) in N. rewrite <- E in N. specialize (N Ok0). cbn zeta in N. rewrite Hf2 in N.
    destruct (N i Hi) as (tgt & t & N1 & N2 & N3 & N4 & _). exists tgt, t. rewrite (seen_buf _ _ _ Hf) in N4. auto.
Qed.
Print Assumptions C84_transform_reaches_every_filter.

(** A destroyed filter's callback stays registered for ever, under a handle of its own; no request
    names it, so it is not called. *)
Lemma dead_count : forall (S : Scalar) T (w : world S), w_calm T w ->
  List.length (w_dead w) = List.length (filter (fun x => match x with None => true | Some _ => false end) (w_filters w)).
Proof.
  intros S T w C. assert (Sn : forall (l : list (option (filt S))) k f x, nth_error l k = Some (Some f) ->
    List.length (filter (fun x => match x with None => true | Some _ => false end) (set_nth l k x)) =
    (match x with None => 1 | Some _ => 0 end + List.length (filter (fun x => match x with None => true | Some _ => false end) l))%nat).
  { induction l as [|y l IH]; intros k f x H; [destruct k; discriminate H|]. destruct k; cbn [nth_error] in H.
    - injection H as H. subst y. cbn [set_nth filter]. destruct x; reflexivity.
    - cbn [set_nth filter]. destruct y; [apply (IH k f); exact H|]. cbn [List.length]. rewrite (IH k f x H). lia. }
  assert (Fa : forall evs (w : world S) read, (forall k f, seen w k = Some f -> nth_error (w_filters w) k <> None) ->
    List.length (filter (fun x => match x with None => true | Some _ => false end) (w_filters (fst (fire_all w evs read)))) = List.length (filter (fun x => match x with None => true | Some _ => false end) (w_filters w)) /\
    w_dead (fst (fire_all w evs read)) = w_dead w).
  { induction evs as [|e evs IH]; intros w0 read Hn; [auto|]. cbn [fire_all]. destruct (existsb _ _); [auto|]. destruct (owner _ _) as [k|] eqn:Eo; [|apply IH; exact Hn].
    destruct (owner_in _ _ _ Eo) as (f & En & _). replace (seen w0 k) with (Some (with_buf f (w_buf w0))) by (unfold seen; rewrite En; reflexivity). destruct (mf_transformable _ _ _) as [f1 [u|c x|]].
    - destruct (IH (put w0 k f1) (fun k => read (Datatypes.S k))) as (A & B); [intros j g Hg; apply seen_lt in Hg; apply nth_error_Some; exact Hg|]. rewrite A, B. split; [|reflexivity]. apply (Sn _ k f (Some f1) En).
    - split; [|reflexivity]. apply (Sn _ k f (Some f1) En).
    - split; [|reflexivity]. apply (Sn _ k f (Some f1) En). }
  assert (Se : forall (w : world S) k f, seen w k = Some f -> exists g, nth_error (w_filters w) k = Some (Some g)) by (intros w0 k f H; unfold seen in H; destruct (nth_error (w_filters w0) k) as [[g|]|]; try discriminate H; eauto).
  induction C as [b|w o C IH Ho Hc Hl]; [reflexivity|]. clear Hc Hl. destruct o as [t q c|k|k o|m a st read|o]; cbn [w_step].
  - unfold w_new. destruct (new_filter _ _ _ _); [|exact IH]. cbn [w_dead w_filters]. rewrite filter_app. cbn [filter]. rewrite app_nil_r. exact IH.
  - unfold w_destroy. destruct (seen w k) as [f|] eqn:Sf; [|exact IH]. destruct (Se _ _ _ Sf) as (g & En). cbn [w_dead w_filters List.length]. rewrite (Sn _ k g None En), IH. reflexivity.
  - destruct (own_call o); [|exact IH]. destruct (seen w k) as [f|] eqn:Sf; [|exact IH]. destruct (Se _ _ _ Sf) as (g & En). cbn [put w_dead w_filters]. rewrite (Sn _ k g (Some (mf_step f o)) En). exact IH.
  - unfold w_set_transform. destruct (set_transform (w_buf w) m a st) as [b [[v evs]|c e|]]; [|exact IH|exact IH].
    destruct (Fa evs (mkWorld b (w_filters w) (w_dead w)) read) as (A & B); [intros j g Hg; apply seen_lt in Hg; apply nth_error_Some; exact Hg|].
    destruct (fire_all (mkWorld b (w_filters w) (w_dead w)) evs read) as [w2 [u|c e|]]; cbn [fst w_filters w_dead] in *; rewrite A, B; exact IH.
  - destruct (keeps_out w o); exact IH.
Qed.
Theorem C84_destroyed_filters_leave_their_callbacks :
  forall (S : Scalar) T (w : world S), w_calm T w ->
  List.length (w_dead w) = List.length (filter (fun x => match x with None => true | Some _ => false end) (w_filters w)) /\
  NoDup (w_dead w) /\ (forall h, In h (w_dead w) -> registered (b_cbs (w_buf w)) h = true /\
    (forall p, In p (pending (w_buf w)) -> p_cb p <> h) /\ (forall k f, seen w k = Some f -> f_cb f <> h)) /\
  (List.length (w_dead w) <= List.length (b_cbs (w_buf w)))%nat.
Proof.
  intros S T w C. pose proof (calm_winv T w C) as I. split; [eapply dead_count; exact C|]. split; [apply (wi_once T w I)|]. split.
  - intros h Hh. destruct (wi_dead T w I h Hh) as (D1 & D2 & D3). split; [apply registered_In; exact D1|]. auto.
  - apply NoDup_incl_length; [apply (wi_once T w I)|]. intros h Hh. apply (wi_dead T w I h Hh).
Qed.
Print Assumptions C84_destroyed_filters_leave_their_callbacks.

(** ** Concrete worlds *)
Definition w_calm_opb (T : duration) (w : world D64) (o : w_op D64) : bool :=
  match o with
  | WNew _ _ _ | WDestroy _ => true
  | WDo k o => match seen w k with Some f => calm_opb T f o | None => true end
  | WTransform m _ _ _ => valid_timeb (tm_stamp m)
  | WOther o => rop_okb o && match o with RAddRequest _ _ _ t => t + c_cache_time (b_core (w_buf w)) <? time_bound | _ => true end
  end.
Fixpoint w_run (w : world D64) (ops : list (w_op D64)) : world D64 := match ops with [] => w | o :: ops' => w_run (w_step w o) ops' end.
Fixpoint w_calm_run (T : duration) (w : world D64) (ops : list (w_op D64)) : bool :=
  match ops with
  | [] => true
  | o :: ops' => w_calm_opb T w o && (b_rq_counter (w_buf (w_step w o)) <? 2 ^ 32)
      && (Z.of_nat (List.length (b_cbs (w_buf (w_step w o)))) <? 2 ^ 32 - 1) && w_calm_run T (w_step w o) ops'
  end.
Lemma w_calm_by : forall ops T w, w_calm T w -> w_calm_run T w ops = true -> w_calm T (w_run w ops).
Proof.
  induction ops as [|o ops IH]; intros T w C H; [exact C|]. cbn [w_calm_run] in H. apply andb_prop in H as [H H3]. apply andb_prop in H as [H H2]. apply andb_prop in H as [H0 H1].
  rewrite Z.ltb_lt in H1, H2. cbn [w_run]. apply IH; [|assumption]. apply w_calm_step; auto. clear H1 H2 H3 IH. destruct o as [t q c|k|k o|m a st read|o]; cbn [w_calm_op w_calm_opb] in *; try exact I.
  - intros f Hf. rewrite Hf in H0. apply calm_op_by. exact H0.
  - unfold valid_timeb, valid_time in *. apply andb_prop in H0 as [A B]. rewrite Z.leb_le in A. rewrite Z.ltb_lt in B. auto.
  - apply andb_prop in H0 as [A B]. split; [apply rop_ok_by; exact A|]. destruct o; auto. rewrite Z.ltb_lt in B. exact B.
Qed.
Definition empty_world : world D64 := mkWorld (init_buf 100) [] [].
Lemma empty_calm : forall T, 0 <= T -> w_calm T empty_world.
Proof.
  intros T H. apply w_calm_init; [exact H|apply (rr_init 100); unfold dur_bound; lia|intros p []|intros p []|cbn; lia|cbn; lia].
Qed.
Definition wtf (child : string) (t : time) : w_op D64 := WTransform (msg "map" child t (v64 1 0 0) id64) "me" false avail.
Definition queue_of (w : world D64) (k : nat) : list nat := match seen w k with Some f => map mi_seq (f_msgs f) | None => [] end.
Definition said (w : world D64) (k : nat) : list (nat * string * Z * outcome) := match seen w k with Some f => shown (f_emitted f) | None => [] end.

(** Three filters come, one goes; each of the other two gets its message; handle 4 stays behind. *)
Definition crowd : list (w_op D64) :=
  [WNew "map" 5 false; WNew "map" 5 false; WDo 0 (MAdd "laser" 50); WNew "map" 2 false; WDo 1 (MAdd "laser" 60); WDo 2 (MAdd "camera" 50); WDestroy 1; wtf "laser" 10].
Example C84_example :
  let w := w_run empty_world crowd in let w' := w_run empty_world (crowd ++ [wtf "laser" 70]) in
  w_calm 0 w /\ w_calm 0 w' /\ w_dead w = [4] /\ queue_of w 0 = [0%nat] /\ queue_of w 2 = [0%nat] /\ queue_of w' 0 = [] /\ queue_of w' 2 = [0%nat] /\
  said w' 0 = [(0%nat, "laser", 50, Ready)] /\ b_cbs (w_buf w') = [4; 3; 1].
Proof.
  intros w w'. split; [apply w_calm_by; [apply empty_calm; lia|vmr]|]. split; [apply w_calm_by; [apply empty_calm; lia|vmr]|].
  split; [vmr|]. split; [vmr|]. split; [vmr|]. split; [vmr|]. split; [vmr|]. split; vmr.
Qed.

(** The order in which one filter's messages become ready depends on the other filters: with its
    one neighbour waiting too, the second message overtakes the first. *)
Theorem C84_order_is_independent_of_others_refuted :
  let mine := [WDo 0 (MAdd "laser" 50); WDo 0 (MAdd "laser" 60); wtf "laser" 10; wtf "laser" 70] in
  let alone := w_run empty_world ([WNew "map" 5 false; WNew "map" 5 false] ++ mine) in
  let both := w_run empty_world ([WNew "map" 5 false; WNew "map" 5 false; WDo 1 (MAdd "laser" 40)] ++ mine) in
  w_calm 0 alone /\ w_calm 0 both /\
  said alone 0 = [(0%nat, "laser", 50, Ready); (1%nat, "laser", 60, Ready)] /\ said both 0 = [(1%nat, "laser", 60, Ready); (0%nat, "laser", 50, Ready)].
Proof.
  intros mine alone both. split; [apply w_calm_by; [apply empty_calm; lia|vmr]|]. split; [apply w_calm_by; [apply empty_calm; lia|vmr]|]. split; vmr.
Qed.
Print Assumptions C84_order_is_independent_of_others_refuted.

(** Without the range condition on stamps: one message stamped within the cache time of the end of
    time, in one filter, makes every later setTransform throw, and the message of another filter,
    whose request was answered and forgotten, waits for ever although its transform is available. *)
Theorem C84_one_bad_stamp_starves_all_filters_refuted :
  let w := w_run empty_world [WNew "map" 5 false; WNew "map" 5 false; WDo 0 (MAdd "laser" 50); WDo 1 (MAdd "camera" (time_bound - 1)); wtf "laser" 10; wtf "camera" 10] in
  let r := w_set_transform w (msg "map" "laser" 70 (v64 1 0 0) id64) "me" false avail in
  match snd r with Throw RuntimeError _ => True | _ => False end /\
  queue_of w 0 = [0%nat] /\ map p_handle (pending (w_buf w)) = [1; 2] /\ queue_of (fst r) 0 = [0%nat] /\ map p_handle (pending (w_buf (fst r))) = [2] /\
  match seen (fst r) 0 with Some f => forallb (all_known f) (f_msgs f) | None => false end = true.
Proof. vm_compute. repeat split. Qed.
Print Assumptions C84_one_bad_stamp_starves_all_filters_refuted.
