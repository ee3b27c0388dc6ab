(** * The Python bindings: proofs *)
From Coq Require Import ZArith Bool List String Lia Arith Reals Lra.
From Verif Require Import RosTime Scalar LinearMath Cache SpecCache CacheProofs CacheQueries BufferCore SpecCore
  CoreInv Naturality CoreSet WalkSpec LctSpec Bridge WalkMain Sim Forget LookupBase LookupTheorems LookupFail LookupFixed NoRange
  CoreTheorems History RoundHistory PyTime PyTimeProofs PyCore SpecPy.
Import ListNotations.
Open Scope Z_scope.
Local Opaque MAX_GRAPH_DEPTH py_time.

(** ** times *)
Lemma year_2038_ok : forall t, 0 <= t < year_2038 -> exists t', py_time t = Ok t' /\ 0 <= t' < dur_bound /\ Z.abs (t' - t) <= 119.
Proof.
  intros t H. unfold year_2038 in H. destruct (trip_iff t ltac:(lia)) as [[_ E]|[N _]]; [|lia]. rewrite E. eexists. split; [reflexivity|].
  pose proof (trip_close 31 t 119 ltac:(lia) ltac:(lia)) as C. 
  assert (A : (Raux.bpow Zaux.radix2 (31 - 54) * 1000000000 <= IZR (119 + 1) - 1 / 2 - 1 / 1000000)%R).
  { replace (Raux.bpow Zaux.radix2 (31 - 54)) with (/ 8388608)%R by (cbn; lra). change (IZR (119 + 1)) with 120%R. lra. }
  specialize (C A). split; [|exact C]. unfold dur_bound. destruct (Z.lt_ge_cases (sec_ns (FloatErr.rnd (secR t))) 0) as [N|N]; [exfalso|lia].
  assert (Q : t < 119) by lia. pose proof (trip_exact t ltac:(lia)) as X. rewrite E in X. injection X as X. lia.
Qed.

Section P.
Context {S : Scalar}.
Implicit Types (s : core S).

(** ** the latest common time is zero or a stored stamp *)
Section Lct.
Context (P : time -> Prop) (P0 : P 0).
Definition stamped s : Prop := forall i c x, getFrame s i = Some c -> In x (samples c) -> P (st_stamp x).
Definition PM (t : time) : Prop := P t \/ t = TIME_MAX.
Lemma latest_P : forall s i c t o, stamped s -> getFrame s i = Some c -> getLatestTimeAndParent c = Ok (t, o) -> P t.
Proof.
  intros s i c t o G E H. destruct c as [mx [|x l]|[x|]]; cbn in H; try discriminate; injection H as <- _; try exact P0.
  apply (G i _ x E). cbn. auto.
Qed.
Lemma stamp_P : forall s i c, stamped s -> getFrame s i = Some c -> P (getLatestTimestamp c).
Proof.
  intros s i c G E. destruct c as [mx [|x l]|o]; cbn; try exact P0. apply (G i _ x E). cbn. auto.
Qed.
Lemma min_PM : forall a b, P a -> PM b -> PM (min_nonzero a b).
Proof. intros a b A B. unfold min_nonzero. destruct (a =? 0); [exact B|]. destruct (Z.min_spec a b) as [[_ ->]|[_ ->]]; [left; exact A|exact B]. Qed.
Lemma zero_P : forall a, PM a -> P (time_or_zero a).
Proof. intros a [A| ->]; unfold time_or_zero; [destruct (a =? TIME_MAX); [exact P0|exact A]|rewrite Z.eqb_refl; exact P0]. Qed.
Lemma lctSource_P : forall fuel s target frame common lct r, stamped s -> PM common -> Forall (fun p => P (fst p)) lct ->
  lctSource fuel s target frame common lct = Ok r -> match r with LSdone t => P t | LSend l => Forall (fun p => P (fst p)) l | LSloop => True end.
Proof.
  induction fuel as [|fuel IH]; intros s target frame common lct r G C L H; cbn [lctSource] in H.
  all: destruct (Nat.eqb frame 0) eqn:E0; [injection H as <-; exact L|]; apply Nat.eqb_neq in E0.
  all: destruct (getFrame s frame) as [c|] eqn:Ec; [|injection H as <-; exact L].
  all: destruct (getLatestTimeAndParent c) as [[stamp po]| |] eqn:El; cbn [bind] in H; try discriminate.
  all: destruct (Nat.eqb (parent_id po) 0); [injection H as <-; exact L|].
  all: pose proof (latest_P s frame c stamp po G Ec El) as Ps; pose proof (min_PM stamp common Ps C) as Pm.
  all: destruct (Nat.eqb (parent_id po) target); [injection H as <-; apply zero_P; exact Pm|].
  - injection H as <-. exact I.
  - apply (IH s target (parent_id po) _ _ r G Pm) in H; [exact H|]. apply Forall_app. split; [exact L|]. constructor; [exact Ps|constructor].
Qed.
Lemma lctTarget_P : forall fuel s source lct frame common r, stamped s -> PM common -> frame <> 0%nat ->
  lctTarget fuel s source lct frame common = Ok r -> match r with LTdone t => P t | LTcommon _ t => PM t | _ => True end.
Proof.
  induction fuel as [|fuel IH]; intros s source lct frame common r G C E0 H; cbn [lctTarget] in H.
  all: destruct (getFrame s frame) as [c|] eqn:Ec; [|injection H as <-; exact I].
  all: destruct (getLatestTimeAndParent c) as [[stamp po]| |] eqn:El; cbn [bind] in H; try discriminate.
  all: destruct (Nat.eqb (parent_id po) 0) eqn:Ep; [injection H as <-; exact I|]; apply Nat.eqb_neq in Ep.
  all: pose proof (latest_P s frame c stamp po G Ec El) as Ps; pose proof (min_PM stamp common Ps C) as Pm.
  all: destruct (existsb _ lct); [injection H as <-; exact Pm|].
  all: destruct (Nat.eqb (parent_id po) source); [injection H as <-; apply zero_P; exact Pm|].
  - injection H as <-. exact I.
  - apply (IH s source lct (parent_id po) _ r G Pm Ep) in H. exact H.
Qed.
Lemma lctMerge_P : forall lct p common, PM common -> Forall (fun q => P (fst q)) lct -> PM (lctMerge lct p common).
Proof.
  induction lct as [|[stamp q] lct IH]; intros p common C L; cbn [lctMerge]; [exact C|]. apply Forall_cons_iff in L as [A L].
  assert (C' : PM (if stamp =? 0 then common else Z.min common stamp)).
  { destruct (stamp =? 0); [exact C|]. destruct (Z.min_spec common stamp) as [[_ ->]|[_ ->]]; [exact C|left; exact A]. }
  destruct (Nat.eqb q p); [exact C'|]. apply IH; assumption.
Qed.
Lemma lct_P : forall s target source err code t err', stamped s -> getLatestCommonTime s target source err = Ok (code, Some t, err') -> P t.
Proof.
  intros s target source err code t err' G H. unfold getLatestCommonTime in H.
  destruct (Nat.eqb source 0 || Nat.eqb target 0) eqn:E0; [discriminate|]. apply orb_false_iff in E0 as [Es Et]. apply Nat.eqb_neq in Es. apply Nat.eqb_neq in Et.
  destruct (Nat.eqb source target).
  { injection H as _ <- _. destruct (getFrame s source) as [c|] eqn:Ec; [|exact P0]. apply (stamp_P s source c G Ec). }
  destruct (lctSource MAX_GRAPH_DEPTH s target source TIME_MAX []) as [rs| |] eqn:E1; cbn [bind] in H; try discriminate.
  pose proof (lctSource_P _ _ _ _ _ _ rs G (or_intror eq_refl) (Forall_nil _) E1) as Q1. destruct rs as [t1|lct|].
  - injection H as _ <- _. exact Q1.
  - destruct (lctTarget MAX_GRAPH_DEPTH s source lct target TIME_MAX) as [rt| |] eqn:E2; cbn [bind] in H; try discriminate.
    pose proof (lctTarget_P _ _ _ _ _ _ rt G (or_intror eq_refl) Et E2) as Q2. destruct rt as [t2|p t2| |].
    + injection H as _ <- _. exact Q2.
    + injection H as _ <- _. apply zero_P. apply lctMerge_P; assumption.
    + destruct (connectivity_error s source target err) as [x| |]; cbn [bind] in H; discriminate.
    + destruct (loop_error s err) as [x| |]; cbn [bind] in H; discriminate.
  - destruct (loop_error s err) as [x| |]; cbn [bind] in H; discriminate.
Qed.
Lemma stamped_init : forall ct, stamped (init_core ct).
Proof. intros ct [|[|i]] c x E; cbn in E; discriminate. Qed.
Lemma stamped_clear : forall s, stamped s -> stamped (clear s).
Proof.
  intros s G i c x E Hx. rewrite getFrame_clear in E. destruct (Nat.eqb i 0) eqn:E0.
  - apply Nat.eqb_eq in E0. subst i. exact (G _ c x E Hx).
  - destruct (getFrame s i) as [c0|] eqn:Ec; [|discriminate]. injection E as <-. apply (G i c0 x Ec). destruct c0 as [mx l|o]; [destruct Hx|exact Hx].
Qed.
Lemma stamped_set : forall s m a st, wf s -> 0 <= tm_stamp m -> P (tm_stamp m) -> stamped s -> stamped (fst (setTransform s m a st)).
Proof.
  intros s m a st W V Pm G. destruct (setTransform_error (strip_msg m)) eqn:E.
  { rewrite setTransform_rejects by assumption. exact G. }
  destruct (setTransform_effect s m a st W V E) as (s' & ci & pi & E1 & _ & _ & _ & _ & _ & O & C & _). cbv zeta in E1, C. rewrite E1. cbn [fst].
  intros i c x Ec Hx. destruct (Nat.eq_dec i ci) as [->|N]; [|rewrite O in Ec by exact N; exact (G i c x Ec Hx)].
  rewrite C in Ec. injection Ec as <-. apply insertData_from in Hx as [->|Hx]; [exact Pm|].
  destruct (getFrame s ci) as [c0|] eqn:E0; [exact (G ci c0 x E0 Hx)|]. unfold new_cache in Hx. destruct st; destruct Hx.
Qed.
(** the stamp of a lookup at time zero *)
Lemma lookup_zero_P : forall s tgt src m, reachable s -> stamped s ->
  lookupTransform s tgt src 0 = Ok m -> P (tm_stamp m).
Proof.
  intros s tgt src m R G H. pose proof (reachable_wf s R) as W. destruct (string_dec tgt src) as [->|Ne].
  - unfold lookupTransform in H. rewrite String.eqb_refl in H. cbn [Z.eqb] in H. injection H as <-. cbn [tm_stamp].
    destruct (getFrame s (lookupFrameNumber s src)) as [c|] eqn:Ec; [|exact P0]. exact (stamp_P s _ c G Ec).
  - destruct (lookup_header s tgt src 0 m R H) as (_ & _ & _ & L). specialize (L eq_refl Ne). unfold latest_common_time in L.
    destruct (getLatestCommonTime s (lookupFrameNumber s tgt) (lookupFrameNumber s src) None) as [[[code ot] e]| |] eqn:E; cbn [bind] in L; try discriminate.
    injection L as -> ->. exact (lct_P _ _ _ _ _ _ _ G E).
Qed.
End Lct.

(** ** a Python program is a C++ program with other stamps *)
Lemma py_set_inv : forall st s m a s' u, py_set st s m a = (s', PyOk u) -> exists t b, py_time (tm_stamp m) = Ok t /\
  setTransform s (mkTmsg t (tm_frame m) (tm_child m) (tm_trans m) (tm_rot m)) a st = (s', Ok b).
Proof.
  intros st s m a s' u H. unfold py_set, arg_time in H. destruct (py_time (tm_stamp m)) as [t|c e|] eqn:E; cbn [bare] in H; try discriminate.
  set (m' := mkTmsg t (tm_frame m) (tm_child m) (tm_trans m) (tm_rot m)) in *. destruct (setTransform s m' a st) as [s1 r] eqn:E1.
  injection H as <- H. destruct r as [b|c e|]; cbn [bare pbind] in H; try discriminate. exists t, b. split; [reflexivity|exact E1].
Qed.
Lemma time_valid : forall t t', 0 <= t < 2 ^ 32 * 10 ^ 9 -> py_time t = Ok t' -> valid_time t'.
Proof.
  intros t t' H E. destruct (trip_iff t H) as [[L F]|[_ F]]; rewrite F in E; [|discriminate]. injection E as <-.
  unfold valid_time, time_bound. apply sec_ns_range; [apply rnd_pt|]. split; [|apply ok_below; lia].
  rewrite <- FloatErr.rnd_0. apply FloatErr.rnd_mono. destruct (secR_range t ltac:(lia)); lra.
Qed.
Lemma run_restamped : forall T ops s s', T <= 2 ^ 32 * 10 ^ 9 -> stamps_below T ops -> py_run s ops = Some s' ->
  exists ops', Forall2 restamped ops ops' /\ Forall op_ok ops' /\ s' = run s ops'.
Proof.
  intros T. induction ops as [|o ops IH]; intros s s' HT B H; cbn [py_run] in H.
  { injection H as <-. exists []. split; [constructor|]. split; [constructor|reflexivity]. }
  apply Forall_cons_iff in B as [B0 B]. destruct (py_step s o) as [s1 r] eqn:E. destruct r; try discriminate.
  destruct (IH s1 s' HT B H) as (ops' & F & V & ->). destruct o as [m au|m au|]; cbn [py_step] in E.
  - destruct (py_set_inv _ _ _ _ _ _ E) as (t & b & Et & Es). exists (OSet (mkTmsg t (tm_frame m) (tm_child m) (tm_trans m) (tm_rot m)) au false :: ops').
    split; [constructor; [cbn; auto 10|exact F]|]. split; [constructor; [apply (time_valid (tm_stamp m)); [lia|exact Et]|exact V]|].
    change (run s1 ops' = run (fst (setTransform s (mkTmsg t (tm_frame m) (tm_child m) (tm_trans m) (tm_rot m)) au false)) ops'). rewrite Es. reflexivity.
  - destruct (py_set_inv _ _ _ _ _ _ E) as (t & b & Et & Es). exists (OSet (mkTmsg t (tm_frame m) (tm_child m) (tm_trans m) (tm_rot m)) au true :: ops').
    split; [constructor; [cbn; auto 10|exact F]|]. split; [constructor; [apply (time_valid (tm_stamp m)); [lia|exact Et]|exact V]|].
    change (run s1 ops' = run (fst (setTransform s (mkTmsg t (tm_frame m) (tm_child m) (tm_trans m) (tm_rot m)) au true)) ops'). rewrite Es. reflexivity.
  - injection E as <- _. exists (OClear :: ops'). split; [constructor; [exact I|exact F]|]. split; [constructor; [exact I|exact V]|]. reflexivity.
Qed.
Lemma buffer_reachable : forall T s, T <= 2 ^ 32 * 10 ^ 9 -> py_buffer T s -> reachable s.
Proof.
  intros T s HT (ct & ops & C & B & H). destruct (run_restamped T ops _ s HT B H) as (ops' & _ & V & ->). exists ct, ops'. auto.
Qed.
(** every stamp in the buffer has made the trip *)
Lemma buffer_stamped : forall (P : time -> Prop) T s, T <= 2 ^ 32 * 10 ^ 9 -> (forall t t', 0 <= t < T -> py_time t = Ok t' -> P t') ->
  py_buffer T s -> stamped P s.
Proof.
  intros P T s HT HP (ct & ops & C & B & H).
  assert (G : forall ops s s', wf s -> stamps_below T ops -> stamped P s -> py_run s ops = Some s' -> stamped P s').
  { clear - HT HP. induction ops as [|o ops IH]; intros s s' W B G H; cbn [py_run] in H; [injection H as <-; exact G|].
    apply Forall_cons_iff in B as [B0 B]. destruct (py_step s o) as [s1 r] eqn:E. destruct r; try discriminate.
    assert (K : forall st m au, 0 <= tm_stamp m < T -> py_set st s m au = (s1, PyOk a) -> wf s1 /\ stamped P s1).
    { intros st m au Bm E1. destruct (py_set_inv _ _ _ _ _ _ E1) as (t & b & Et & Es).
      assert (V : valid_time t) by (apply (time_valid (tm_stamp m)); [lia|exact Et]).
      set (m' := mkTmsg t (tm_frame m) (tm_child m) (tm_trans m) (tm_rot m)) in *. replace s1 with (step s (OSet m' au st)) by (cbn [step]; rewrite Es; reflexivity).
      split; [apply wf_step; [exact W|exact V]|]. cbn [step]. apply stamped_set; [exact W|apply V|apply (HP (tm_stamp m) t Bm Et)|exact G]. }
    destruct o as [m au|m au|]; cbn [py_step] in E; [destruct (K false m au B0 E) as [W1 G1]|destruct (K true m au B0 E) as [W1 G1]|injection E as <- _; assert (W1 : wf (clear s)) by (apply wf_clear; exact W); assert (G1 : stamped P (clear s)) by (apply stamped_clear; exact G)];
      exact (IH _ s' W1 B G1 H). }
  apply (G ops (init_core ct) s); [apply wf_init; exact C|exact B|apply stamped_init|exact H].
Qed.
Lemma stamped_hist : forall (P : time -> Prop) s n c x, wf s -> stamped P s -> hist s n = Some c -> In x (samples c) -> P (st_stamp x).
Proof.
  intros P s n c x W G H Hx. unfold hist in H. destruct (assoc n (c_ids s)) as [[|i]|]; try discriminate.
  destruct (getFrame s (Datatypes.S i)) as [c0|] eqn:E; [|discriminate]. injection H as <-.
  destruct c0 as [mx l|[y|]]; cbn [map_cache samples option_map] in Hx.
  - apply in_map_iff in Hx as (y & <- & Hy). exact (G _ _ y E Hy).
  - destruct Hx as [<-|[]]. apply (G _ _ y E). left. reflexivity.
  - destruct Hx.
Qed.

(** ** nothing escapes before 2038 *)
Lemma set_total : forall s m a st, wf s -> valid_time (tm_stamp m) -> valid_time (tm_stamp m + c_cache_time s) ->
  exists b, snd (setTransform s m a st) = Ok b.
Proof.
  intros s m a st W [V1 V2] V. destruct (setTransform_error (strip_msg m)) eqn:E.
  { rewrite setTransform_rejects by assumption. cbn. eauto. }
  destruct (setTransform_effect s m a st W V1 E) as (s' & ci & pi & E1 & _). cbv zeta in E1. rewrite E1. cbn [snd].
  destruct (wf_ct s W) as [C1 C2]. set (x0 := mk_storage (strip_msg m) pi ci).
  assert (G : forall l, newest_first l -> stamps_nonneg l -> exists r, snd (insertData (Dynamic (c_cache_time s) l) x0) = Ok r).
  { intros l N Nn. assert (Nx : stamps_nonneg (x0 :: l)) by (intros y [<-|Hy]; [exact V1|auto]).
    destruct (insert_cases (c_cache_time s) l x0 C1 N Nx V) as [(y & Hy & Lt & Ei)|[(A & (y & Hy & Ey) & Ei)|(A & B & l' & Ei & _)]];
      rewrite Ei; cbn; eauto. }
  assert (Q : exists r, snd (insertData (match getFrame s ci with Some c => c | None => new_cache s st end) x0) = Ok r).
  { destruct (getFrame s ci) as [c|] eqn:Ec.
    - destruct (wf_cache s W _ _ Ec) as (Hok & Hm & _). destruct c as [mx l|o]; [|cbn; eauto].
      cbn in Hm. subst mx. destruct Hok as [_ (N & _ & Nn)]. apply G; assumption.
    - destruct st; [cbn; eauto|]. apply G; [constructor|intros y []]. }
  destruct Q as [r ->]. destruct r; cbn; eauto.
Qed.
Lemma ct_step : forall s o, wf s -> op_ok o -> c_cache_time (step s o) = c_cache_time s.
Proof.
  intros s [m a st|] W H; [|reflexivity]. cbn [step]. destruct (setTransform_error (strip_msg m)) eqn:E.
  { rewrite setTransform_rejects by assumption. reflexivity. }
  destruct (setTransform_effect s m a st W (proj1 H) E) as (s' & ci & pi & E1 & _ & _ & _ & _ & _ & _ & _ & C). cbv zeta in E1. rewrite E1. exact C.
Qed.
Lemma run_survives : forall ops s, wf s -> stamps_below year_2038 ops -> exists s', py_run s ops = Some s'.
Proof.
  induction ops as [|o ops IH]; intros s W B; [cbn; eauto|]. apply Forall_cons_iff in B as [B0 B].
  assert (K : forall st m au, 0 <= tm_stamp m < year_2038 -> exists s1, py_set st s m au = (s1, PyOk tt) /\ wf s1).
  { intros st m au Bm. destruct (year_2038_ok (tm_stamp m) Bm) as (t & Et & Bt & _). unfold py_set, arg_time. rewrite Et. cbn [bare].
    set (m' := mkTmsg t (tm_frame m) (tm_child m) (tm_trans m) (tm_rot m)).
    assert (V : valid_time (tm_stamp m')) by (unfold m', valid_time, time_bound, dur_bound in *; cbn [tm_stamp]; lia).
    destruct (set_total s m' au st W V) as [b Hb].
    { destruct (wf_ct s W) as [C1 C2]. unfold m', valid_time, time_bound, dur_bound in *; cbn [tm_stamp]; lia. }
    destruct (setTransform s m' au st) as [s1 r] eqn:E1. cbn [snd] in Hb. subst r. exists s1. split; [reflexivity|].
    replace s1 with (step s (OSet m' au st)) by (cbn [step]; rewrite E1; reflexivity). apply wf_step; [exact W|exact V]. }
  cbn [py_run]. destruct o as [m au|m au|]; cbn [py_step].
  - destruct (K false m au B0) as (s1 & -> & W1). exact (IH s1 W1 B).
  - destruct (K true m au B0) as (s1 & -> & W1). exact (IH s1 W1 B).
  - exact (IH (clear s) (wf_clear s W) B).
Qed.
Definition soon (t : time) : Prop := 0 <= t < dur_bound.
Lemma buffer_soon : forall s, py_buffer year_2038 s -> reachable s /\ stamped soon s /\ early s.
Proof.
  intros s H. assert (R : reachable s) by (apply (buffer_reachable year_2038); [unfold year_2038; lia|exact H]).
  assert (G : stamped soon s).
  { apply (buffer_stamped soon year_2038); [unfold year_2038; lia| |exact H]. intros t t' B E. destruct (year_2038_ok t B) as (t1 & E1 & B1 & _). rewrite E in E1. injection E1 as ->. exact B1. }
  split; [exact R|]. split; [exact G|]. intros n c x Hh Hx. apply (stamped_hist soon s n c x (reachable_wf s R) G Hh Hx).
Qed.
Lemma lookup_soon : forall s tgt src t m, reachable s -> stamped soon s -> soon t -> lookupTransform s tgt src t = Ok m -> soon (tm_stamp m).
Proof.
  intros s tgt src t m R G B H. destruct (Z.eq_dec t 0) as [->|N].
  - apply (lookup_zero_P soon) with (s := s) (tgt := tgt) (src := src); [unfold soon, dur_bound; lia|exact R|exact G|exact H].
  - destruct (lookup_header s tgt src t m R H) as (_ & _ & L & _). rewrite (L N). exact B.
Qed.
Lemma to_python_soon : forall m : tmsg S, soon (tm_stamp m) -> to_python m = PyOk m.
Proof. intros m [_ H]. unfold to_python, rospy_time. unfold dur_bound in H. rewrite (proj2 (Z.ltb_lt _ _) H). reflexivity. Qed.
Lemma wrap_cases : forall A (r : res A), (exists a, r = Ok a) \/ (exists cl e, r = Throw cl e /\
    In cl [InvalidArgumentException; LookupException; ConnectivityException; ExtrapolationException; RuntimeError]) ->
  (forall e, r <> Throw RuntimeError e) ->
  (exists a, r = Ok a /\ wrap r = PyOk a) \/ (exists c e, r = Throw c e /\ wrap r = PyRaise c e /\ In c [InvalidArgumentException; LookupException; ConnectivityException; ExtrapolationException; TransformException]).
Proof.
  intros A r [[a ->]|(c & e & -> & I)] N; [left; eauto|]. right. exists c, e. split; [reflexivity|].
  destruct c; cbn in I |- *; try (split; [reflexivity|tauto]); [|exfalso; exact (N e eq_refl)].
  exfalso. destruct I as [I|[I|[I|[I|[I|[]]]]]]; discriminate.
Qed.
(** a lookup in Python is the C++ lookup at the rounded time *)
Lemma py_lookup_is : forall s tgt src t t', reachable s -> early s -> stamped soon s -> py_time t = Ok t' -> soon t' ->
  returns_or_raises (py_lookup s tgt src t) /\
  (forall m, py_lookup s tgt src t = PyOk m <-> lookupTransform s tgt src t' = Ok m) /\
  (forall c e, py_lookup s tgt src t = PyRaise c e <-> lookupTransform s tgt src t' = Throw c e).
Proof.
  intros s tgt src t t' R He G E B. unfold py_lookup, arg_time. rewrite E. cbn [bare pbind].
  destruct (wrap_cases _ _ (lookup_total s tgt src t' R) (lookup_no_range s tgt src t' R He B)) as [(m & L & ->)|(c & e & L & -> & I)].
  - cbn [pbind]. rewrite (to_python_soon m) by (apply (lookup_soon s tgt src t'); assumption). rewrite L.
    split; [left; eauto|]. split; [intros m'; split; congruence|intros c e; split; discriminate].
  - cbn [pbind]. rewrite L. split; [right; eauto|]. split; [intros m'; split; discriminate|intros c' e'; split; congruence].
Qed.
Lemma validate_cases : forall s arg n, wf s -> (plain n /\ known s n /\ validateFrameId s arg n = Ok (lookupFrameNumber s n)) \/
  exists c e, validateFrameId s arg n = Throw c e /\ In c [InvalidArgumentException; LookupException].
Proof.
  intros s arg n W. destruct (plain_dec n) as [P|P]; [|right; destruct (validate_not_plain s arg n P) as [e ->]; exists InvalidArgumentException, e; cbn; auto].
  destruct (known_dec s n) as [K|K]; [left; split; [exact P|]; split; [exact K|apply validate_known; assumption]|right].
  rewrite validate_unknown by assumption. do 2 eexists. split; [reflexivity|cbn; auto].
Qed.
Lemma in5 : forall c, In c [InvalidArgumentException; LookupException] -> In c [InvalidArgumentException; LookupException; ConnectivityException; ExtrapolationException; RuntimeError].
Proof. intros c [<-|[<-|[]]]; cbn; auto. Qed.
Lemma fixed_total : forall s tgt t1 src t2 fix_, reachable s ->
  (exists m, lookupTransformFixed s tgt t1 src t2 fix_ = Ok m) \/
  exists cl e, lookupTransformFixed s tgt t1 src t2 fix_ = Throw cl e /\
    In cl [InvalidArgumentException; LookupException; ConnectivityException; ExtrapolationException; RuntimeError].
Proof.
  intros s tgt t1 src t2 fix_ R. pose proof (reachable_wf s R) as W. unfold lookupTransformFixed.
  destruct (validate_cases s "lookupTransform argument target_frame" tgt W) as [(_ & _ & ->)|(c & e & -> & I)]; cbn [bind]; [|right; exists c, e; split; [reflexivity|apply in5; exact I]].
  destruct (validate_cases s "lookupTransform argument source_frame" src W) as [(_ & _ & ->)|(c & e & -> & I)]; cbn [bind]; [|right; exists c, e; split; [reflexivity|apply in5; exact I]].
  destruct (validate_cases s "lookupTransform argument fixed_frame" fix_ W) as [(_ & _ & ->)|(c & e & -> & I)]; cbn [bind]; [|right; exists c, e; split; [reflexivity|apply in5; exact I]].
  destruct (lookup_total s fix_ src t2 R) as [[m1 ->]|(c & e & -> & I)]; cbn [bind]; [|right; eauto].
  destruct (lookup_total s tgt fix_ t1 R) as [[m2 ->]|(c & e & -> & I)]; cbn [bind]; [left; eauto|right; eauto].
Qed.
Lemma fixed_stamp : forall s tgt t1 src t2 fix_ m, lookupTransformFixed s tgt t1 src t2 fix_ = Ok m ->
  exists m2, lookupTransform s tgt fix_ t1 = Ok m2 /\ tm_stamp m = tm_stamp m2.
Proof.
  intros s tgt t1 src t2 fix_ m H. unfold lookupTransformFixed in H.
  destruct (validateFrameId s "lookupTransform argument target_frame" tgt) as [i1| |]; cbn [bind] in H; try discriminate.
  destruct (validateFrameId s "lookupTransform argument source_frame" src) as [i2| |]; cbn [bind] in H; try discriminate.
  destruct (validateFrameId s "lookupTransform argument fixed_frame" fix_) as [i3| |]; cbn [bind] in H; try discriminate.
  destruct (lookupTransform s fix_ src t2) as [m1| |]; cbn [bind] in H; try discriminate.
  destruct (lookupTransform s tgt fix_ t1) as [m2| |]; cbn [bind] in H; try discriminate.
  exists m2. split; [reflexivity|]. injection H as <-. reflexivity.
Qed.
Lemma py_lookup_full_is : forall s tgt t1 src t2 fix_ t1' t2', reachable s -> early s -> stamped soon s ->
  py_time t1 = Ok t1' -> soon t1' -> py_time t2 = Ok t2' -> soon t2' ->
  returns_or_raises (py_lookup_full s tgt t1 src t2 fix_) /\
  (forall m, py_lookup_full s tgt t1 src t2 fix_ = PyOk m <-> lookupTransformFixed s tgt t1' src t2' fix_ = Ok m) /\
  (forall c e, py_lookup_full s tgt t1 src t2 fix_ = PyRaise c e <-> lookupTransformFixed s tgt t1' src t2' fix_ = Throw c e).
Proof.
  intros s tgt t1 src t2 fix_ t1' t2' R He G E1 B1 E2 B2. unfold py_lookup_full, arg_time. rewrite E1, E2. cbn [bare pbind].
  destruct (wrap_cases _ _ (fixed_total s tgt t1' src t2' fix_ R) (fun e => fixed_no_range s tgt t1' src t2' fix_ e R He B1 B2)) as [(m & L & ->)|(c & e & L & -> & I)].
  - destruct (fixed_stamp _ _ _ _ _ _ _ L) as (m2 & L2 & Es).
    cbn [pbind]. rewrite (to_python_soon m) by (rewrite Es; apply (lookup_soon s tgt fix_ t1'); assumption). rewrite L.
    split; [left; eauto|]. split; [intros m'; split; congruence|intros c e; split; discriminate].
  - cbn [pbind]. rewrite L. split; [right; eauto|]. split; [intros m'; split; discriminate|intros c' e'; split; congruence].
Qed.
(** asked for an error string or not, canTransform answers the same *)
Lemma can_err_same : forall s tgt src t err, reachable s -> early s -> soon t ->
  exists b e, canTransform s tgt src t err = Ok (b, e) /\ canTransform s tgt src t None = Ok (b, None).
Proof.
  intros s tgt src t err R He Ht. apply reachable_wf in R as W.
  destruct err as [er|]; [|destruct (can_total s tgt src t W) as [b E]; rewrite E; eauto].
  destruct (string_dec tgt src) as [->|Ne].
  { unfold canTransform. rewrite String.eqb_refl. eauto. }
  destruct (warnFrameId tgt) eqn:P1; [unfold canTransform; rewrite (proj2 (String.eqb_neq _ _) Ne), P1; eauto|].
  destruct (warnFrameId src) eqn:P2; [unfold canTransform; rewrite (proj2 (String.eqb_neq _ _) Ne), P1, P2; eauto|].
  destruct (known_dec s tgt) as [K1|K1].
  2:{ destruct (can_total s tgt src t W) as [b E]. rewrite E. unfold canTransform in *. rewrite (proj2 (String.eqb_neq _ _) Ne), P1, P2, (lookupFrameNumber_unknown s tgt W K1) in *. cbn [Nat.eqb orb] in *. injection E as <- _. eauto. }
  destruct (known_dec s src) as [K2|K2].
  2:{ destruct (can_total s tgt src t W) as [b E]. rewrite E. unfold canTransform in *. rewrite (proj2 (String.eqb_neq _ _) Ne), P1, P2, (lookupFrameNumber_unknown s src W K2), orb_true_r in *. injection E as <- _. eauto. }
  apply plain_warn in P1. apply plain_warn in P2. rewrite !can_walk by auto.
  destruct (known_live s tgt W K1) as (i & Li & _ & -> & _). destruct (known_live s src W K2) as (j & Lj & _ & -> & _).
  pose proof (twalk_no_range s t i j (Some er) W He Ht Li Lj) as N. pose proof (twalk_silent s t i j er W Li Lj) as Q.
  destruct (twalk_cases s t i j (Some er) W Li Lj) as [[_ H]|(code & a & x & ch & E & Hc & _)]; [contradiction|].
  rewrite E in Q |- *. cbn in Q. destruct Q as ([[[code' a'] e'] ch'] & E' & H1 & _). cbn in H1. subst code'.
  destruct (twalk_cases s t i j None W Li Lj) as [[? _]|(code2 & a2 & e2 & ch2 & E2 & _ & Hn)]; [congruence|].
  rewrite E' in E2 |- *. injection E2 as <- <- <- <-. cbn [bind]. rewrite (proj1 Hn eq_refl). eauto.
Qed.
Lemma can_err_fixed_same : forall s tgt t1 src t2 fix_ err, reachable s -> early s -> soon t1 -> soon t2 ->
  exists b e, canTransformFixed s tgt t1 src t2 fix_ err = Ok (b, e) /\ canTransformFixed s tgt t1 src t2 fix_ None = Ok (b, None).
Proof.
  intros s tgt t1 src t2 fix_ err R He H1 H2. apply reachable_wf in R as W. unfold canTransformFixed.
  destruct (warnFrameId tgt) eqn:P1; [eauto|]. destruct (warnFrameId src) eqn:P2; [eauto|]. destruct (warnFrameId fix_) eqn:P3; [eauto|].
  destruct (Nat.eqb (lookupFrameNumber s tgt) 0 || Nat.eqb (lookupFrameNumber s src) 0 || Nat.eqb (lookupFrameNumber s fix_) 0) eqn:Z.
  { unfold missing_err. destruct (Nat.eqb (lookupFrameNumber s tgt) 0), (Nat.eqb (lookupFrameNumber s src) 0), (Nat.eqb (lookupFrameNumber s fix_) 0); cbn; eauto. }
  apply orb_false_iff in Z as [Z Z3]. apply orb_false_iff in Z as [Z1 Z2]. apply Nat.eqb_neq in Z1, Z2, Z3.
  assert (K : forall n, lookupFrameNumber s n <> 0%nat -> known s n). { intros n Hn. destruct (known_dec s n) as [|N]; [assumption|]. rewrite (lookupFrameNumber_unknown s n W N) in Hn. congruence. }
  apply plain_warn in P1. apply plain_warn in P2. apply plain_warn in P3.
  rewrite !(canNoLock s tgt fix_ t1) by auto. destruct (can_err_same s tgt fix_ t1 err R He H1) as (b & e & -> & ->). cbn [bind]. destruct b; [|eauto].
  rewrite !(canNoLock s fix_ src t2) by auto. apply can_err_same; assumption.
Qed.
Lemma py_can_is : forall s tgt src t t', reachable s -> early s -> stamped soon s -> py_time t = Ok t' -> soon t' ->
  exists b e, py_can s tgt src t = PyOk (b, e) /\ (b = true <-> exists m, py_lookup s tgt src t = PyOk m).
Proof.
  intros s tgt src t t' R He G E B. destruct (can_err_same s tgt src t' (Some EEmpty) R He B) as (b & e & C & C').
  exists b, e. unfold py_can, arg_time. rewrite E. cbn [bare pbind]. rewrite C. split; [reflexivity|].
  destruct (py_lookup_is s tgt src t t' R He G E B) as (_ & L & _). pose proof (can_iff_lookup s tgt src t' R He B) as I. rewrite C' in I.
  split.
  - intros ->. destruct (proj1 I eq_refl) as [m Hm]. exists m. apply L. exact Hm.
  - intros [m Hm]. apply L in Hm. pose proof (proj2 I (ex_intro _ m Hm)) as Q. congruence.
Qed.
Lemma py_can_full_is : forall s tgt t1 src t2 fix_ t1' t2', reachable s -> early s -> stamped soon s -> py_time t1 = Ok t1' -> soon t1' -> py_time t2 = Ok t2' -> soon t2' ->
  exists b e, py_can_full s tgt t1 src t2 fix_ = PyOk (b, e) /\ (b = true <-> exists m, py_lookup_full s tgt t1 src t2 fix_ = PyOk m).
Proof.
  intros s tgt t1 src t2 fix_ t1' t2' R He G E1 B1 E2 B2. destruct (can_err_fixed_same s tgt t1' src t2' fix_ (Some EEmpty) R He B1 B2) as (b & e & C & C').
  exists b, e. unfold py_can_full, arg_time. rewrite E1, E2. cbn [bare pbind]. rewrite C. split; [reflexivity|].
  destruct (py_lookup_full_is s tgt t1 src t2 fix_ t1' t2' R He G E1 B1 E2 B2) as (_ & L & _). pose proof (can_iff_lookup_fixed s tgt t1' src t2' fix_ R He B1 B2) as I. rewrite C' in I.
  split.
  - intros ->. destruct (proj1 I eq_refl) as [m Hm]. exists m. apply L. exact Hm.
  - intros [m Hm]. apply L in Hm. pose proof (proj2 I (ex_intro _ m Hm)) as Q. congruence.
Qed.

(** ** get_latest_common_time *)
Lemma lct_err_total : forall s tgt src err, wf s -> known s tgt -> known s src ->
  exists code ot err', getLatestCommonTime s (lookupFrameNumber s tgt) (lookupFrameNumber s src) err = Ok (code, ot, err') /\
    latest_common_time s tgt src = Ok (code, ot) /\ (code = NO_ERROR <-> ot <> None).
Proof.
  intros s tgt src err W K1 K2. unfold latest_common_time.
  destruct (known_live s tgt W K1) as (i & Li & _ & -> & _). destruct (known_live s src W K2) as (j & Lj & _ & -> & _).
  assert (U : forall err1, exists code ot err', getLatestCommonTime s i j err1 = Ok (code, ot, err') /\ (code = NO_ERROR <-> ot <> None)).
  { intros err1. destruct (Nat.eq_dec j i) as [->|Ne].
    - unfold getLatestCommonTime. rewrite (proj2 (Nat.eqb_neq _ _) (proj1 Li)), Nat.eqb_refl. cbn [orb]. do 3 eexists. split; [reflexivity|]. split; congruence.
    - destruct (lct_outcome_ok s i j err1 W Lj Li Ne); do 3 eexists; (split; [reflexivity|]); split; congruence. }
  destruct (U err) as (code & ot & err' & E & Hc). destruct (U None) as (code0 & ot0 & err0 & E0 & _). exists code, ot, err'. split; [exact E|]. split; [|exact Hc].
  rewrite E0. cbn [bind]. 
  unfold getLatestCommonTime in E, E0. destruct (Nat.eqb j 0 || Nat.eqb i 0); [injection E as <- <- _; injection E0 as <- <- _; reflexivity|].
  destruct (Nat.eqb j i); [injection E as <- <- _; injection E0 as <- <- _; reflexivity|].
  destruct (lctSource MAX_GRAPH_DEPTH s i j TIME_MAX []) as [rs| |]; cbn [bind] in E, E0; try discriminate. destruct rs as [t1|lct|].
  - injection E as <- <- _; injection E0 as <- <- _; reflexivity.
  - destruct (lctTarget MAX_GRAPH_DEPTH s j lct i TIME_MAX) as [rt| |]; cbn [bind] in E, E0; try discriminate. destruct rt as [t2|p t2| |].
    + injection E as <- <- _; injection E0 as <- <- _; reflexivity.
    + injection E as <- <- _; injection E0 as <- <- _; reflexivity.
    + destruct (connectivity_error s j i err) as [x| |]; cbn [bind] in E; try discriminate. destruct (connectivity_error s j i None) as [y| |]; cbn [bind] in E0; try discriminate.
      injection E as <- <- _; injection E0 as <- <- _; reflexivity.
    + destruct (loop_error s err) as [x| |]; cbn [bind] in E; try discriminate. destruct (loop_error s None) as [y| |]; cbn [bind] in E0; try discriminate.
      injection E as <- <- _; injection E0 as <- <- _; reflexivity.
  - destruct (loop_error s err) as [x| |]; cbn [bind] in E; try discriminate. destruct (loop_error s None) as [y| |]; cbn [bind] in E0; try discriminate.
    injection E as <- <- _; injection E0 as <- <- _; reflexivity.
Qed.
Lemma py_latest_is : forall s tgt src, reachable s -> stamped soon s ->
  returns_or_raises (py_latest s tgt src) /\
  (forall t, py_latest s tgt src = PyOk t <-> plain tgt /\ plain src /\ known s tgt /\ known s src /\ latest_common_time s tgt src = Ok (NO_ERROR, Some t)).
Proof.
  intros s tgt src R G. pose proof (reachable_wf s R) as W. unfold py_latest.
  assert (N : forall c e, In c [InvalidArgumentException; LookupException] -> wrap (Throw c e : res nat) = PyRaise c e) by (intros c e [<-|[<-|[]]]; reflexivity).
  destruct (validate_cases s "get_latest_common_time" tgt W) as [(P1 & K1 & ->)|(c & e & E & I)].
  2:{ rewrite E, (N c e I). cbn [pbind]. split; [right; exists c, e; split; [reflexivity|destruct I as [<-|[<-|[]]]; cbn; auto]|].
      intros t. split; [discriminate|]. intros (P1 & _ & K1 & _). rewrite validate_known in E by assumption. discriminate. }
  destruct (validate_cases s "get_latest_common_time" src W) as [(P2 & K2 & ->)|(c & e & E & I)].
  2:{ rewrite E, (N c e I). cbn [wrap pbind]. split; [right; exists c, e; split; [reflexivity|destruct I as [<-|[<-|[]]]; cbn; auto]|].
      intros t. split; [discriminate|]. intros (_ & P2 & _ & K2 & _). rewrite validate_known in E by assumption. discriminate. }
  cbn [wrap pbind]. destruct (lct_err_total s tgt src (Some EEmpty) W K1 K2) as (code & ot & err' & E & L & Hc). rewrite E. cbn [bare pbind].
  destruct ot as [t0|].
  - assert (code = NO_ERROR) by (apply Hc; discriminate). subst code. cbn beta iota.
    assert (B : soon t0) by (apply (lct_P soon ltac:(unfold soon, dur_bound; lia) _ _ _ _ _ _ _ G E)).
    unfold rospy_time. destruct B as [B0 B1]. unfold dur_bound in B1. rewrite (proj2 (Z.ltb_lt _ _) B1).
    split; [left; eauto|]. intros t. rewrite L. split; [intros X; injection X as <-; auto|]. intros (_ & _ & _ & _ & X). congruence.
  - assert (C : code <> NO_ERROR) by (intros X; apply Hc in X; congruence).
    split.
    + right. exists TransformException, (match err' with Some e => e | None => EEmpty end). split; [destruct code; [congruence|reflexivity..]|cbn; auto 10].
    + intros t. rewrite L. split; [destruct code; [congruence|discriminate..]|]. intros (_ & _ & _ & _ & X). congruence.
Qed.

(** ** asking for the latest, then at its stamp *)
Lemma wrap_ok : forall (r : res (tmsg S)) m, pbind (wrap r) to_python = PyOk m -> r = Ok m /\ to_python m = PyOk m.
Proof.
  intros r m H. destruct r as [m'|c e|]; cbn [wrap pbind] in H; [|destruct c; discriminate|discriminate].
  assert (M : m' = m) by (unfold to_python in H; destruct (rospy_time (tm_stamp m')); [injection H as <-; reflexivity|discriminate]).
  subst m'. auto.
Qed.
Lemma py_repeat : forall T s tgt src m, T <= 2 ^ 32 * 10 ^ 9 -> py_buffer T s -> py_lookup s tgt src 0 = PyOk m ->
  py_lookup s tgt src (tm_stamp m) = PyOk m.
Proof.
  intros T s tgt src m HT H L. pose proof (buffer_reachable T s HT H) as R.
  assert (Z : py_time 0 = Ok 0) by (apply trip_exact; lia).
  assert (G : stamped (fun t => py_time t = Ok t) s).
  { apply (buffer_stamped (fun t => py_time t = Ok t) T); [exact HT| |exact H]. intros t t' B E. apply (trip_idem t); [lia|exact E]. }
  unfold py_lookup, arg_time in L. rewrite Z in L. cbn [bare pbind] in L.
  apply wrap_ok in L as [E L].
  pose proof (lookup_zero_P (fun t => py_time t = Ok t) Z s tgt src m R G E) as F. cbv beta in F.
  unfold py_lookup, arg_time. rewrite F. cbn [bare pbind]. rewrite (latest_then_at_stamp s tgt src m R E). cbn [wrap pbind]. exact L.
Qed.
(** ** below 2^23 s nothing changes *)
Lemma run_exact : forall ops s s', stamps_below day_97 ops -> py_run s ops = Some s' -> s' = run s (map in_cpp ops).
Proof.
  induction ops as [|o ops IH]; intros s s' B H; cbn [py_run] in H; [injection H as <-; reflexivity|].
  apply Forall_cons_iff in B as [B0 B]. destruct (py_step s o) as [s1 r] eqn:E. destruct r; try discriminate.
  rewrite (IH s1 s' B H). cbn [map]. change (run s1 (map in_cpp ops) = run (step s (in_cpp o)) (map in_cpp ops)). f_equal.
  destruct o as [[ms mf mc mt mr] au|[ms mf mc mt mr] au|]; cbn [py_step] in E; [| |injection E as <- _; reflexivity].
  all: destruct (py_set_inv _ _ _ _ _ _ E) as (t & b & Et & Es); cbn [tm_stamp tm_frame tm_child tm_trans tm_rot] in *.
  all: rewrite trip_exact in Et by exact B0; injection Et as <-; cbn [in_cpp step]; rewrite Es; reflexivity.
Qed.
End P.
