(** * C96: how long the buffer_server program keeps transforms *)
From Coq Require Import ZArith Bool List String Reals Floats.SpecFloat Lia Lra Psatz.
From Flocq Require Import Zaux Raux Defs Generic_fmt FLT BinarySingleNaN.
From Verif Require Import RosTime Scalar Instances LinearMath Cache BufferCore SpecCore CoreInv SpecRound FloatErr RoundNorm RoundOps FloatMore RoundInterp Malformed PyTime PyTimeProofs
  TfAction SpecAction SpecTopics Network SpecNetwork SpecRemote PropsRemote PropsNetwork ServerMain ExampleBuffers PropsAction.
Import ListNotations.
Open Scope R_scope.

Lemma below_2_31 : forall d, generic_format radix2 (FLT_exp (-1074) 53) d -> d < 2147483648 -> d <= 2147483648 - / 4194304.
Proof.
  intros d F H. destruct (Rle_or_lt 1073741824 d) as [G|G]; [|lra].
  destruct (on_grid 30 d ltac:(lia) F) as [m M]; [rewrite bpowp by lia; exact G|]. replace (bpow radix2 (30 - 52)) with (/ 4194304) in M by (cbn; lra).
  rewrite M in H |- *. assert (m < 2147483648 * 4194304)%Z by (apply lt_IZR; rewrite mult_IZR; lra). assert (IZR m <= 2147483648 * 4194304 - 1) by (rewrite <- mult_IZR, <- minus_IZR; apply IZR_le; lia). lra.
Qed.
Lemma sec_ns_dur : forall d, generic_format radix2 (FLT_exp (-1074) 53) d -> -2147483648 <= d < 2147483648 -> (- dur_bound <= sec_ns d < dur_bound)%Z.
Proof.
  intros d F [H0 H1]. change dur_bound with (2147483648 * 10 ^ 9)%Z. split.
  - unfold sec_ns. assert (-2147483648 <= Zfloor d)%Z by (apply Zfloor_lub; lra). pose proof (frac_bounds d). assert (0 <= Zfloor (frac_ns d + 1 / 2))%Z by (apply Zfloor_lub; lra). lia.
  - apply lt_IZR. pose proof (sec_ns_err d) as E. pose proof (below_2_31 d F H1). change (IZR (2147483648 * 10 ^ 9)) with 2147483648000000000. lra.
Qed.
Lemma dur_ok : forall d, finite d -> -2147483648 <= val d < 2147483648 -> dur_from_sec d = Ok (sec_ns (val d)).
Proof.
  intros d F B. unfold dur_from_sec. rewrite floor_eq by exact F. set (f := Zfloor (val d)).
  assert (F0 : (-2147483648 <= f)%Z) by (apply Zfloor_lub; lra). assert (F1 : (f < 2147483648)%Z) by (apply lt_IZR; eapply Rle_lt_trans; [apply Zfloor_lb|lra]).
  replace ((f <? - 2 ^ 63)%Z || (2 ^ 63 <=? f)%Z) with false by (symmetry; apply orb_false_iff; split; [apply Z.ltb_ge|apply Z.leb_gt]; lia).
  replace ((f <? - 2 ^ 31)%Z || (2 ^ 31 <=? f)%Z) with false by (symmetry; apply orb_false_iff; split; [apply Z.ltb_ge|apply Z.leb_gt]; lia).
  destruct (fofZ_exact f ltac:(lia)) as [Ff Vf]. destruct (fofZ_exact (10 ^ 9) ltac:(lia)) as [Fn Vn].
  pose proof (Zfloor_lb (val d)) as L. pose proof (Zfloor_ub (val d)) as U. fold f in L, U. pose proof big_1e20 as BG.
  destruct (fsub_ok d (f64_of_Z f) F Ff) as [Fs Vs]; [rewrite Vf; apply Rabs_le; lra|]. rewrite Vf in Vs.
  assert (A : 0 <= rnd (val d - IZR f) <= 1) by (apply (rnd_in 0 1 _ rnd_0 rnd_1); lra).
  destruct (fmul_ok _ _ Fs Fn) as [Fm Vm]; [rewrite Vs, Vn; change (IZR (10 ^ 9)) with 1000000000; apply Rabs_le; lra|]. rewrite Vs, Vn in Vm. change (IZR (10 ^ 9)) with 1000000000 in Vm.
  change (rnd (rnd (val d - IZR f) * 1000000000)) with (frac_ns (val d)) in Vm. pose proof (frac_bounds (val d)) as FB.
  rewrite round_eq by (try exact Fm; rewrite Vm; lra). rewrite Vm. set (n := Zfloor (frac_ns (val d) + 1 / 2)).
  assert (N0 : (0 <= n)%Z) by (apply Zfloor_lub; lra). assert (N1 : (n <= 10 ^ 9)%Z). { assert (n < 10 ^ 9 + 1)%Z; [|lia]. apply lt_IZR. eapply Rle_lt_trans; [apply Zfloor_lb|]. change (IZR (10 ^ 9 + 1)) with 1000000001. lra. }
  replace ((n <? - 2 ^ 31)%Z || (2 ^ 31 <=? n)%Z) with false by (symmetry; apply orb_false_iff; split; [apply Z.ltb_ge|apply Z.leb_gt]; lia).
  pose proof (sec_ns_dur (val d) (val_format d F) B) as R. unfold sec_ns in R |- *. fold f n in R |- *. change dur_bound with (2147483648 * 10 ^ 9)%Z in R.
  pose proof (Z.quot_rem n (10 ^ 9) ltac:(lia)) as D. pose proof (Z.rem_bound_pos n (10 ^ 9) N0 ltac:(lia)) as M. cbv zeta.
  set (k := Z.quot n (10 ^ 9)) in *. set (r := Z.rem n (10 ^ 9)) in *. clearbody f n k r.
  replace (2 ^ 31 <=? f + k)%Z with false by (symmetry; apply Z.leb_gt; lia). f_equal. lia.
Qed.
Lemma dur_high : forall d, finite d -> 2147483648 <= val d < 9223372036854775808 \/ -9223372036854775808 <= val d < -2147483648 -> dur_from_sec d = Throw RuntimeError ETimeRange.
Proof.
  intros d F B. unfold dur_from_sec. rewrite floor_eq by exact F. set (f := Zfloor (val d)). pose proof (Zfloor_lb (val d)) as L. fold f in L.
  assert (F1 : (-9223372036854775808 <= f < 9223372036854775808)%Z) by (split; [apply Zfloor_lub; lra|apply lt_IZR; lra]).
  assert (F2 : (2147483648 <= f \/ f < -2147483648)%Z) by (destruct B as [B|B]; [left; apply Zfloor_lub; lra|right; apply lt_IZR; lra]).
  replace ((f <? - 2 ^ 63)%Z || (2 ^ 63 <=? f)%Z) with false by (symmetry; apply orb_false_iff; split; [apply Z.ltb_ge|apply Z.leb_gt]; lia).
  replace ((f <? - 2 ^ 31)%Z || (2 ^ 31 <=? f)%Z) with true; [reflexivity|]. symmetry. apply orb_true_iff. destruct F2; [right; apply Z.leb_le|left; apply Z.ltb_lt]; lia.
Qed.

(** A buffer_size that fits: the program keeps transforms for that many seconds, to the nanosecond. *)
Theorem C96_buffer_size_is_kept : forall ps node ex d,
  p_buffer_size ps = Some d -> finite d -> -2147483648 <= val d < 2147483648 ->
  exists p, server_main ps node ex = Ok p /\ valid_dur (s_cache_time p) /\
    Rabs (IZR (s_cache_time p) - val d * 1000000000) <= 1 / 2 + 3 / 10000000 /\
    (0 <= val d -> (0 <= s_cache_time p)%Z).
Proof.
  intros ps node ex d P F B. unfold server_main. rewrite P. cbn [param]. rewrite (dur_ok d F B). cbn [bind]. eexists. split; [reflexivity|]. cbn [s_cache_time].
  pose proof (sec_ns_err (val d)) as E. split; [exact (sec_ns_dur (val d) (val_format d F) B)|]. split; [apply Rabs_le; lra|].
  intros P0. unfold sec_ns. assert (0 <= Zfloor (val d))%Z by (apply Zfloor_lub; lra). pose proof (frac_bounds (val d)). assert (0 <= Zfloor (frac_ns (val d) + 1 / 2))%Z by (apply Zfloor_lub; lra). lia.
Qed.
Print Assumptions C96_buffer_size_is_kept.

(** One that does not fit: std::runtime_error leaves main. *)
Theorem C96_too_long_is_refused : forall ps node ex d,
  p_buffer_size ps = Some d -> finite d -> 2147483648 <= val d < 9223372036854775808 \/ -9223372036854775808 <= val d < -2147483648 ->
  server_main ps node ex = Throw RuntimeError ETimeRange.
Proof. intros ps node ex d P F B. unfold server_main. rewrite P. cbn [param]. rewrite (dur_high d F B). reflexivity. Qed.
Print Assumptions C96_too_long_is_refused.

(** Without the parameter: two minutes.  The action is served under a fixed name unless the node's is asked for, the
    frame service only on request and unless there is one already. *)
Theorem C96_defaults : forall ps node ex, p_buffer_size ps = None ->
  exists p, server_main ps node ex = Ok p /\ s_cache_time p = (120 * 10 ^ 9)%Z /\
    s_action p = (match p_node_namespace ps with Some true => node | _ => "tf2_buffer_server"%string end) /\
    (s_frames p = true <-> p_frame_service ps = Some true /\ ex = false).
Proof.
  intros ps node ex P. unfold server_main. rewrite P. cbn [param]. replace (dur_from_sec (f64_of_Z 120)) with (Ok (120 * 10 ^ 9)%Z : res duration) by (vm_compute; reflexivity).
  cbn [bind]. eexists. split; [reflexivity|]. cbn [s_cache_time s_action s_frames]. split; [reflexivity|]. split; [destruct (p_node_namespace ps) as [[|]|]; reflexivity|].
  destruct (p_frame_service ps) as [[|]|], ex; cbn; intuition congruence.
Qed.
Print Assumptions C96_defaults.

(** ** A negative buffer_size *)
Section Negative.
Context {S : Scalar}.
Variables ct : duration.
Hypothesis Hct : (ct < 0)%Z.
Notation core := (core S).

Record blank (s : core) : Prop := {
  b_ct : c_cache_time s = ct;
  b_len : List.length (c_frames s) = List.length (c_rev s);
  b_ids : forall n i, assoc n (c_ids s) = Some i -> nth_error (c_rev s) i = Some n;
  b_cache : forall i c, getFrame s i = Some c -> c = Dynamic ct []
}.
Lemma blank_init : blank (init_core ct).
Proof.
  constructor; cbn [init_core c_cache_time c_frames c_rev c_ids List.length]; auto.
  - intros n i. cbn [assoc]. destruct (String.eqb_spec n NO_PARENT) as [->|]; [|discriminate]. intros E. injection E as <-. reflexivity.
  - intros [|[|i]] c; cbn; discriminate.
Qed.
Lemma insert_blank : forall s n s' i, blank s -> lookupOrInsertFrameNumber s n = (s', i) -> blank s' /\ (i < List.length (c_frames s'))%nat.
Proof.
  intros s n s' i B. unfold lookupOrInsertFrameNumber. destruct (assoc n (c_ids s)) as [k|] eqn:E; intros X; injection X as <- <-.
  - pose proof (b_ids _ B _ _ E) as N. split; [exact B|]. rewrite (b_len _ B). eapply nth_error_lt. exact N.
  - split; [|cbn [c_frames]; rewrite app_length; cbn; lia]. destruct B as [B1 B2 B3 B6].
    constructor; cbn [c_cache_time c_frames c_rev c_ids]; auto.
    + rewrite !app_length. cbn. lia.
    + intros m j. cbn [assoc]. destruct (String.eqb_spec m n) as [->|].
      * intros X. injection X as <-. rewrite B2. apply nth_error_app_last.
      * intros X. apply B3 in X. rewrite nth_error_app1; [exact X|]. eapply nth_error_lt, X.
    + intros j c. unfold getFrame. cbn [c_frames]. destruct (nth_error (c_frames s ++ [None]) j) as [o|] eqn:G; [|discriminate]. intros ->.
      apply nth_error_snoc in G as [G|[_ G]]; [|discriminate]. apply (B6 j). unfold getFrame. rewrite G. reflexivity.
Qed.
Lemma setFrame_blank : forall s i, blank s -> blank (setFrame s i (Dynamic ct [])).
Proof.
  intros s i [B1 B2 B3 B6]. constructor; cbn [setFrame c_cache_time c_frames c_rev c_ids]; auto; rewrite ?list_set_length; auto.
  intros j c. unfold getFrame. cbn [setFrame c_frames]. destruct (Nat.eq_dec i j) as [<-|N].
  - destruct (Nat.ltb_spec i (List.length (c_frames s))) as [L|L].
    + rewrite list_set_same by exact L. congruence.
    + replace (nth_error (list_set (c_frames s) i (Some (Dynamic ct []))) i) with (@None (option (cache S nat))); [discriminate|].
      symmetry. apply nth_error_None. rewrite list_set_length. exact L.
  - rewrite list_set_other by exact N. apply B6.
Qed.
(** the sample that has just been put in is pruned at once *)
Lemma insert_forgets : forall x : storage S nat, (- ct <= st_stamp x < time_bound)%Z -> insertData (Dynamic ct []) x = (Dynamic ct [], Ok Inserted).
Proof.
  intros x H. cbn [insertData insert_sorted pruneList rev app prune_rev]. unfold time_add, valid_timeb.
  replace ((0 <=? st_stamp x + ct)%Z && (st_stamp x + ct <? time_bound)%Z) with true by (symmetry; apply andb_true_iff; split; [apply Z.leb_le|apply Z.ltb_lt]; lia).
  replace (st_stamp x + ct <? st_stamp x)%Z with true by (symmetry; apply Z.ltb_lt; lia). reflexivity.
Qed.
Lemma set_forgets : forall s m a, blank s -> (- ct <= tm_stamp m < time_bound)%Z ->
  blank (fst (setTransform s m a false)) /\ snd (setTransform s m a false) = Ok (negb (setTransform_error (strip_msg m))).
Proof.
  intros s m a B H. unfold setTransform. destruct (setTransform_error (strip_msg m)); [split; [exact B|reflexivity]|].
  destruct (lookupOrInsertFrameNumber s (tm_child (strip_msg m))) as [s1 ch] eqn:E1. destruct (insert_blank _ _ _ _ B E1) as [B1 L1].
  assert (X : (let '(s2, c) := match getFrame s1 ch with Some c => (s1, c) | None => let c := new_cache s1 false in (setFrame s1 ch c, c) end in blank s2 /\ c = Dynamic ct [])).
  { destruct (getFrame s1 ch) as [c|] eqn:G; [split; [exact B1|exact (b_cache _ B1 _ _ G)]|]. cbn [new_cache]. rewrite (b_ct _ B1). split; [apply setFrame_blank, B1|reflexivity]. }
  destruct (match getFrame s1 ch with Some c => (s1, c) | None => let c := new_cache s1 false in (setFrame s1 ch c, c) end) as [s2 c]. destruct X as [B2 ->].
  destruct (lookupOrInsertFrameNumber s2 (tm_frame (strip_msg m))) as [s3 pa] eqn:E3. destruct (insert_blank _ _ _ _ B2 E3) as [B3 L3].
  rewrite insert_forgets by exact H. cbn [fst snd negb]. split; [|reflexivity].
  pose proof (setFrame_blank s3 ch B3) as [C1 C2 C3 C4]. constructor; assumption.
Qed.
Lemma clear_blank : forall s, blank s -> blank (clear s).
Proof.
  intros s [B1 B2 B3 B6]. constructor; cbn [clear c_cache_time c_frames c_rev c_ids]; auto.
  - destruct (c_frames s); [exact B2|]. cbn [List.length] in *. rewrite map_length. exact B2.
  - intros i c. specialize (B6 i). unfold getFrame in *. cbn [clear c_frames]. destruct (c_frames s) as [|f0 fs]; [exact (B6 c)|].
    destruct i as [|i]; cbn [nth_error] in *; [exact (B6 c)|]. rewrite nth_error_map. destruct (nth_error fs i) as [[d|]|] eqn:G; cbn [option_map]; try discriminate.
    intros X. injection X as <-. rewrite (B6 d eq_refl). reflexivity.
Qed.
Lemma run_blank : forall ops s, blank s ->
  (forall m a st, In (OSet m a st) ops -> st = false /\ (- ct <= tm_stamp m < time_bound)%Z) -> blank (run s ops).
Proof.
  induction ops as [|o ops IH]; intros s B H; [exact B|]. cbn [run fold_left]. apply IH; [|intros m a st I; apply (H m a st); right; exact I].
  destruct o as [m a st|]; cbn [step]; [|apply clear_blank, B]. destruct (H m a st (or_introl eq_refl)) as [-> V]. exact (proj1 (set_forgets s m a B V)).
Qed.

(** nothing in it leads anywhere *)
Lemma lookup_blank : forall s tgt src t m, blank s -> tgt <> src -> lookupTransform s tgt src t <> Ok m.
Proof.
  intros s tgt src t m B Ne E. unfold lookupTransform in E. rewrite (proj2 (String.eqb_neq _ _) Ne) in E.
  unfold validateFrameId in E. destruct (is_empty tgt); [discriminate E|]. destruct (startsWithSlash tgt); [discriminate E|].
  destruct (Nat.eqb_spec (lookupFrameNumber s tgt) 0) as [|T]; [discriminate E|]. cbn [bind] in E.
  destruct (is_empty src); [discriminate E|]. destruct (startsWithSlash src); [discriminate E|].
  destruct (Nat.eqb_spec (lookupFrameNumber s src) 0) as [|U]; [discriminate E|]. cbn [bind] in E.
  assert (D : lookupFrameNumber s src <> lookupFrameNumber s tgt).
  { unfold lookupFrameNumber in *. destruct (assoc src (c_ids s)) as [i|] eqn:A1; [|congruence]. destruct (assoc tgt (c_ids s)) as [j|] eqn:A2; [|congruence].
    apply (b_ids _ B) in A1, A2. intros ->. congruence. }
  set (i := lookupFrameNumber s src) in *. set (j := lookupFrameNumber s tgt) in *.
  assert (C : forall k, getFrame s k = None \/ getFrame s k = Some (Dynamic ct [])).
  { intros k. destruct (getFrame s k) as [c|] eqn:G; [right; rewrite (b_cache _ B _ _ G); reflexivity|left; reflexivity]. }
  unfold walkToTopParent, getLatestCommonTime in E. revert E. generalize MAX_GRAPH_DEPTH. intros fuel E. rewrite (proj2 (Nat.eqb_neq _ _) D) in E.
  assert (N0 : Nat.eqb i 0 = false) by (apply Nat.eqb_neq; exact U). assert (N1 : Nat.eqb j 0 = false) by (apply Nat.eqb_neq; exact T).
  assert (N2 : Nat.eqb i j = false) by (apply Nat.eqb_neq; exact D). assert (N3 : Nat.eqb j i = false) by (rewrite Nat.eqb_sym; exact N2).
  assert (W : forall fu t', exists fin, (exists x, fin = x) /\
    walkSource ta_gather ta_accum ta_finalize fu s t' j i i taccum0 (Some EEmpty) [] = Ok fin /\
    (exists might, fin = STop taccum0 i (Some EEmpty) might [i])).
  { intros [|f] t'; cbn [walkSource]; rewrite N0; (destruct (C i) as [-> | ->]; [|cbn [ta_gather getData findClosest bind Nat.eqb]]); cbn [app]; eauto 8. }
  assert (V : forall fu t' e, walkTarget ta_gather ta_accum ta_finalize fu s t' i i j taccum0 e [] = Ok (TStop taccum0 j e [j]) \/
                      walkTarget ta_gather ta_accum ta_finalize fu s t' i i j taccum0 e [] = Ok (TExtrap e)).
  { intros [|f] t' e; cbn [walkTarget]; rewrite N3; (destruct (C j) as [-> | ->]; [left|right; cbn [ta_gather getData findClosest bind Nat.eqb]]); reflexivity. }
  destruct (t =? 0)%Z.
  - rewrite N0, N1 in E. cbn [orb] in E.
    assert (L : forall fu, lctSource fu s j i TIME_MAX [] = Ok (LSend [])).
    { intros [|f]; cbn [lctSource]; rewrite N0; destruct (C i) as [-> | ->]; reflexivity. }
    rewrite (L fuel) in E. cbn [bind] in E.
    assert (M : forall fu, lctTarget fu s i [] j TIME_MAX = Ok LTend).
    { intros [|f]; cbn [lctTarget]; destruct (C j) as [-> | ->]; reflexivity. }
    rewrite (M fuel) in E. cbn [bind] in E. destruct (connectivity_error s i j (Some EEmpty)) as [e'|c e'|]; discriminate E.
  - cbn [bind] in E. destruct (W fuel t) as (fin & _ & W1 & might & ->). rewrite W1 in E. cbn [bind] in E.
    destruct (V fuel t (Some EEmpty)) as [V1|V1]; rewrite V1 in E; cbn [bind] in E.
    + rewrite N3 in E. destruct might; [destruct (when_error s i j EEmpty (Some EEmpty)) as [e'|c e'|]|destruct (connectivity_error s i j (Some EEmpty)) as [e'|c e'|]]; discriminate E.
    + destruct (when_error s i j EEmpty (Some EEmpty)) as [e'|c e'|]; discriminate E.
Qed.
End Negative.

(** "The program refuses a buffer_size it cannot work with": false.  A negative one is accepted; from then on every
    transform that is broadcast is accepted - setTransform returns true - and forgotten at once: nothing
    can ever be looked up between two frames. *)
Theorem C96_negative_size_refuted : forall (S : Scalar) ps node ex d,
  p_buffer_size ps = Some d -> finite d -> -2147483648 <= val d <= - / 1000000000 ->
  exists p, server_main ps node ex = Ok p /\ (s_cache_time p < 0)%Z /\
    forall ops : list (core_op S), (forall m a st, In (OSet m a st) ops -> st = false /\ (- s_cache_time p <= tm_stamp m < time_bound)%Z) ->
      (forall m a, (- s_cache_time p <= tm_stamp m < time_bound)%Z -> ~ malformed m -> snd (setTransform (run (server_core p) ops) m a false) = Ok true) /\
      (forall tgt src t r, tgt <> src -> lookupTransform (run (server_core p) ops) tgt src t <> Ok r).
Proof.
  intros S ps node ex d P F B. unfold server_main. rewrite P. cbn [param]. rewrite (dur_ok d F) by lra. cbn [bind]. eexists. split; [reflexivity|]. cbn [s_cache_time server_core].
  pose proof (sec_ns_err (val d)) as E. assert (Neg : (sec_ns (val d) < 0)%Z) by (apply lt_IZR; lra). split; [exact Neg|].
  intros ops H. assert (Bl : blank (sec_ns (val d)) (run (@server_core S (mkProgram (sec_ns (val d)) (param (p_frame_service ps) false && negb ex) (if param (p_node_namespace ps) false then node else "tf2_buffer_server"%string))) ops)).
  { apply (run_blank _ Neg); [apply blank_init|exact H]. }
  split.
  - intros m a V M. rewrite (proj2 (set_forgets _ Neg _ m a Bl V)). apply not_malformed in M. unfold bad_message in M. rewrite M. reflexivity.
  - intros tgt src t r Ne. exact (lookup_blank _ _ tgt src t r Bl Ne).
Qed.
Print Assumptions C96_negative_size_refuted.

(** ** the program in a network *)
(** A network whose nodes run the program: what a remote client is told by the one on node [j] was broadcast, whatever non-negative
    buffer_size the program was started with. *)
Theorem C96_clients_are_told_what_was_broadcast :
  forall (S : Scalar) ps node ex d p warn (nops : list (net_op S)) j (sops : list (nat * @server_op S)) sv log id padding answer tgt src t timeout m,
  match p_buffer_size ps with Some d' => d' = d | None => d = f64_of_Z 120 end -> finite d -> 0 <= val d < 2147483648 ->
  server_main ps node ex = Ok p ->
  net_ok nops -> on_node warn (s_cache_time p) nops j sops ->
  NoDup (goal_ids (map snd sops)) -> server_run empty_server (map snd sops) = (sv, log) -> served (map snd sops) log answer ->
  (- dur_bound <= timeout + padding < dur_bound)%Z -> tgt <> src ->
  client_lookupTransform id padding answer tgt src t timeout = Ok m -> from_broadcasts nops m tgt src t.
Proof.
  intros S ps node ex d p warn nops j sops sv log id padding answer tgt src t timeout m Hd F B Hp.
  assert (P : param (p_buffer_size ps) (f64_of_Z 120) = d) by (destruct (p_buffer_size ps); cbn [param]; congruence).
  unfold server_main in Hp. rewrite P, (dur_ok d F) in Hp by lra. cbn [bind] in Hp. injection Hp as <-. cbn [s_cache_time].
  pose proof (sec_ns_dur (val d) (val_format d F) ltac:(lra)) as V.
  assert (N0 : (0 <= sec_ns (val d))%Z) by (unfold sec_ns; assert (0 <= Zfloor (val d))%Z by (apply Zfloor_lub; lra); pose proof (frac_bounds (val d)); assert (0 <= Zfloor (frac_ns (val d) + 1 / 2))%Z by (apply Zfloor_lub; lra); lia).
  intros; eapply C94_only_what_was_broadcast; eauto; lia.
Qed.
Print Assumptions C96_clients_are_told_what_was_broadcast.

(** ** examples *)
Open Scope Z_scope.
Definition half_second : params := mkParams (Some (SFdiv prec64 emax64 (f64_of_Z 1) (f64_of_Z 2))) (Some true) (Some true).
Definition minus_two : params := mkParams (Some (f64_of_Z (-2))) None None.
Example C96_example :
  server_main half_second "/tf_node" false = Ok (mkProgram 500000000 true "/tf_node") /\
  server_main minus_two "/tf_node" false = Ok (mkProgram (-2000000000) false "tf2_buffer_server") /\
  server_main (mkParams (Some (f64_of_Z (2 ^ 31))) None None) "/tf_node" false = Throw RuntimeError ETimeRange /\
  (let s := run (@server_core D64 (mkProgram (-2000000000) false "tf2_buffer_server")) [OSet (msg "odom" "base" 5000000000 (v64 1 0 0) id64) "odometry" false] in
   snd (setTransform s (msg "odom" "base" 6000000000 (v64 2 0 0) id64) "odometry" false) = Ok true /\
   show_lookup (lookupTransform (fst (setTransform s (msg "odom" "base" 6000000000 (v64 2 0 0) id64) "odometry" false)) "odom" "base" 0) = (Some ConnectivityException, None)).
Proof. split; [vm_compute; reflexivity|]. split; [vm_compute; reflexivity|]. split; [vm_compute; reflexivity|]. cbv zeta. split; vmr. Qed.
