(** * Several message filters on one buffer: what each of them sees *)
From Coq Require Import ZArith Bool List String Lia Permutation.
From Verif Require Import RosTime Scalar LinearMath Cache BufferCore SpecCore CoreInv CoreSet Requests SpecRequests RequestProofs RequestHistory
  MessageFilter SpecFilter FilterProofs FilterCalm ManyFilters SpecManyFilters.
Import ListNotations.
Open Scope Z_scope.

Section P.
Context {S : Scalar}.
Notation filt := (filt S).
Notation buf := (buf S).
Notation world := (world S).
Implicit Types (f g : filt) (b : buf) (w : world).

Definition next b (o : req_op S) : buf := fst (fst (req_step b o)).
Definition req_cond b (o : req_op S) : Prop :=
  req_op_ok o /\ match o with RAddRequest _ _ _ t => t + c_cache_time (b_core b) < time_bound | _ => True end.
Definition small b : Prop := b_rq_counter b < 2 ^ 32 /\ Z.of_nat (List.length (b_cbs b)) < 2 ^ 32.

(** ** One call of a client *)
Lemma next_ct : forall b o, req_reachable b -> req_op_ok o -> c_cache_time (b_core (next b o)) = c_cache_time (b_core b).
Proof.
  intros b o R H. destruct (reach_binv b R) as (I & _). pose proof (reachable_wf _ (bi_core b I)) as W. unfold next.
  destruct o as [m au st| | |c|c tgt src t|h]; cbn [req_step fst].
  - assert (E : c_cache_time (fst (setTransform (b_core b) m au st)) = c_cache_time (b_core b)) by (apply (step_ct (b_core b) (OSet m au st) W H)).
    unfold set_transform. destruct (setTransform (b_core b) m au st) as [s' [[|]|cl e|]]; cbn [fst] in *; try exact E.
    unfold testTransformableRequests. destruct (test_loop _ _ _ _ _ _) as [l r]. exact E.
  - apply (step_ct (b_core b) OClear W Logic.I).
  - unfold addTransformableCallback. destruct (next_cb_handle _ _ _); reflexivity.
  - reflexivity.
  - pose proof (add_request_core b c tgt src t) as X. destruct (addTransformableRequest b c tgt src t) as [b1 r]. cbn [fst] in *. rewrite X. reflexivity.
  - reflexivity.
Qed.
Lemma next_fact : forall b o, req_reachable b -> req_op_ok o ->
  (forall p, In p (pending (next b o)) -> In p (pending b) \/ o = RAddRequest (p_cb p) (p_target p) (p_source p) (p_time p)) /\
  b_rq_counter b <= b_rq_counter (next b o).
Proof.
  intros b o R H. destruct (reach_binv b R) as (I & Hc). unfold next. destruct (req_step b o) as [[b' a] evs] eqn:E. cbn [fst].
  destruct (step_fact b o b' a evs I H ltac:(lia) E) as [_ C _ _ _ N _]. split; [|lia]. intros p Hp. destruct (N p Hp) as [X|(X & _)]; auto.
Qed.
Lemma next_times : forall b o, req_reachable b -> req_cond b o -> times_in_range b -> times_in_range (next b o).
Proof.
  intros b o R (H & Hc) Ti p Hp. rewrite (next_ct b o R H). destruct (next_fact b o R H) as (N & _). destruct (N p Hp) as [X|X]; [apply Ti; exact X|].
  rewrite X in Hc. exact Hc.
Qed.
Lemma next_reach : forall b o, req_reachable b -> req_op_ok o -> small (next b o) -> req_reachable (next b o).
Proof. intros b o R H (Hs & _). apply rr_step; [exact R|exact H|]. unfold next in Hs. unfold uint64. lia. Qed.

(** A filter not concerned *)
Lemma see_other : forall T f b o, calm T (with_buf f b) -> polite (with_buf f b) o = true -> req_cond b o -> small (next b o) ->
  calm T (with_buf f (next b o)) /\ with_buf f (next b o) = mf_step (with_buf f b) (MOther o).
Proof.
  intros T f b o C Po (Ho & Hc) (S1 & S2).
  assert (E : with_buf f (next b o) = mf_step (with_buf f b) (MOther o)) by (cbn [mf_step]; rewrite Po; reflexivity).
  split; [|exact E]. rewrite E. apply calm_step; [exact C|split; [exact Ho|exact Hc]| |]; rewrite <- E; assumption.
Qed.

(** ** What a filter does to the buffer *)
Definition by_ (cb : Z) b (o : req_op S) : Prop :=
  match o with
  | RSet _ _ _ | RClear => False
  | RAddCallback => True
  | RRemoveCallback c => c = cb
  | RAddRequest c _ _ _ => c = cb
  | RCancel h => forall r, In r (b_reqs b) -> rq_handle r = h mod uint32 -> rq_cb r = cb
  end.
Inductive moves (cb : Z) : buf -> buf -> Prop :=
| moves_nil : forall b, moves cb b b
| moves_cons : forall b o b', by_ cb b o -> req_cond b o -> small (next b o) -> moves cb (next b o) b' -> moves cb b b'.
Lemma moves_app : forall cb b1 b2 b3, moves cb b1 b2 -> moves cb b2 b3 -> moves cb b1 b3.
Proof. intros cb b1 b2 b3 H. induction H; intros M; [exact M|]. eapply moves_cons; eauto. Qed.
Lemma by_polite : forall f b cb o, f_cb f <> cb -> by_ cb b o -> polite (with_buf f b) o = true.
Proof.
  intros f b cb o N B. destruct o as [m au st| | |c|c tgt src t|h]; cbn [by_ polite with_buf f_cb f_buf] in *; try contradiction; try reflexivity.
  - subst. apply negb_true_iff, Z.eqb_neq. auto.
  - subst. apply negb_true_iff, Z.eqb_neq. auto.
  - apply negb_true_iff. destruct (existsb _ _) eqn:E; [|reflexivity]. apply existsb_exists in E as (r & Hr & E). apply andb_prop in E as [E1 E2].
    apply Z.eqb_eq in E1, E2. specialize (B r Hr E2). congruence.
Qed.
Definition is_other (o : mf_op S) : Prop := exists r, o = MOther r.
Lemma moves_sim : forall T f cb b b', f_cb f <> cb -> moves cb b b' -> calm T (with_buf f b) ->
  calm T (with_buf f b') /\ exists ops, Forall is_other ops /\ mf_run (with_buf f b) ops = with_buf f b'.
Proof.
  intros T f cb b b' N M. induction M as [b|b o b' B Hc Hs M IH]; intros C.
  - split; [exact C|]. exists []. split; [constructor|reflexivity].
  - destruct (see_other T f b o C (by_polite f b cb o N B) Hc Hs) as (C1 & E). destruct (IH C1) as (C2 & ops & F & E2).
    split; [exact C2|]. exists (MOther o :: ops). split; [constructor; [exists o; reflexivity|exact F]|]. cbn [mf_run]. rewrite <- E. exact E2.
Qed.
Lemma moves_fact : forall cb b b', moves cb b b' -> req_reachable b -> times_in_range b ->
  req_reachable b' /\ times_in_range b' /\ (forall p, In p (pending b') -> In p (pending b) \/ p_cb p = cb).
Proof.
  intros cb b b' M. induction M as [b|b o b' B Hc Hs M IH]; intros R Ti; [auto|].
  destruct (IH (next_reach b o R (proj1 Hc) Hs) (next_times b o R Hc Ti)) as (R' & Ti' & N). split; [exact R'|]. split; [exact Ti'|].
  intros p Hp. destruct (N p Hp) as [X|X]; [|right; exact X]. destruct (next_fact b o R (proj1 Hc)) as (Y & _). destruct (Y p X) as [Z1|Z1]; [left; exact Z1|].
  right. subst o. exact B.
Qed.

(** requests of one add() *)
Lemma moves_requests : forall targets b cb src st tol acc, binv b -> 0 <= cb < uint32 ->
  b_rq_counter b + 2 * Z.of_nat (List.length targets) < uint64 - 1 -> 0 <= st -> 0 <= tol -> st + tol + c_cache_time (b_core b) < time_bound ->
  small (fst (add_requests b cb src st tol targets acc)) -> moves cb b (fst (add_requests b cb src st tol targets acc)).
Proof.
  induction targets as [|tgt rest IH]; intros b cb src st tol acc I Hcb Hc H0 Htol Hr Hs; [apply moves_nil|].
  cbn [List.length] in Hc. rewrite Nat2Z.inj_succ in Hc. pose proof (wf_ct _ (reachable_wf _ (bi_core b I))) as Ct.
  destruct (add_one b cb tgt src st) as (b1 & h & nw & E1 & I1 & C1 & Cb1 & Cc1 & Ct1 & P1 & D1); [assumption|assumption|lia|split; lia|lia|].
  assert (N1 : next b (RAddRequest cb tgt src st) = b1) by (unfold next; cbn [req_step]; rewrite E1; reflexivity).
  assert (Mono : forall b0 acc0, binv b0 -> b_rq_counter b0 + 2 * Z.of_nat (List.length rest) < uint64 - 1 -> c_cache_time (b_core b0) = c_cache_time (b_core b) ->
    b_rq_counter b0 <= b_rq_counter (fst (add_requests b0 cb src st tol rest acc0)) /\ b_cbs (fst (add_requests b0 cb src st tol rest acc0)) = b_cbs b0).
  { intros b0 acc0 I0 Hc0 Hct0. destruct (add_requests_calm rest b0 cb src st tol acc0) as (b' & r & news & E & _ & _ & Cb' & _ & Cr & _); try assumption; [rewrite Hct0; lia|].
    rewrite E. cbn [fst]. split; [lia|exact Cb']. }
  assert (Step1 : small b1 -> moves cb b b1).
  { intros Sm. eapply moves_cons with (o := RAddRequest cb tgt src st); [reflexivity|split; [split; [assumption|split; lia]|lia]|rewrite N1; exact Sm|rewrite N1; apply moves_nil]. }
  cbn [add_requests] in *. rewrite E1 in *. destruct (note_answer h acc) as [a1|]; [|apply Step1; exact Hs].
  destruct (Z.eqb_spec tol 0) as [Et|Et].
  - destruct (Mono b1 a1 I1 ltac:(lia) ltac:(rewrite C1; reflexivity)) as (M1 & M2). assert (Sm1 : small b1) by (destruct Hs as (X & Y); split; [lia|rewrite M2 in Y; exact Y]).
    eapply moves_app; [apply Step1; exact Sm1|]. apply IH; try assumption; try lia. rewrite C1. lia.
  - unfold time_add, valid_timeb in *. rewrite (proj2 (Z.leb_le 0 (st + tol))) in * by lia. rewrite (proj2 (Z.ltb_lt (st + tol) time_bound)) in * by lia. cbn [andb] in *.
    destruct (add_one b1 cb tgt src (st + tol)) as (b2 & h2 & nw2 & E2 & I2 & C2 & Cb2 & Cc2 & Ct2 & P2 & D2); [assumption|assumption|lia|split; lia|rewrite C1; lia|].
    rewrite E2 in *. assert (N2 : next b1 (RAddRequest cb tgt src (st + tol)) = b2) by (unfold next; cbn [req_step]; rewrite E2; reflexivity).
    assert (Step2 : small b2 -> moves cb b b2).
    { intros Sm. assert (Sm1 : small b1) by (destruct Sm as (X & Y); split; [lia|rewrite Cb2 in Y; exact Y]). eapply moves_app; [apply Step1; exact Sm1|].
      eapply moves_cons with (o := RAddRequest cb tgt src (st + tol)); [reflexivity|split; [split; [assumption|split; lia]|rewrite C1; lia]|rewrite N2; exact Sm|rewrite N2; apply moves_nil]. }
    destruct (note_answer h2 a1) as [a2|]; [|apply Step2; exact Hs].
    destruct (Mono b2 a2 I2 ltac:(lia) ltac:(rewrite C2, C1; reflexivity)) as (M1 & M2). assert (Sm2 : small b2) by (destruct Hs as (X & Y); split; [lia|rewrite M2 in Y; exact Y]).
    eapply moves_app; [apply Step2; exact Sm2|]. apply IH; try assumption; try lia. rewrite C2, C1. lia.
Qed.
Lemma moves_cancel : forall hs b cb, small b -> (forall h, In h hs -> 0 <= h < uint64) ->
  (forall h r, In h hs -> In r (b_reqs b) -> rq_handle r = h mod uint32 -> rq_cb r = cb) ->
  moves cb b (fold_left cancelTransformableRequest hs b).
Proof.
  induction hs as [|h hs IH]; intros b cb Sm Hr Hm; [apply moves_nil|]. cbn [fold_left].
  eapply moves_cons with (o := RCancel h).
  - intros r H1 H2. eapply Hm; [left; reflexivity|exact H1|exact H2].
  - split; [apply Hr; left; reflexivity|exact Logic.I].
  - exact Sm.
  - apply IH; [exact Sm|intros k Hk; apply Hr; right; exact Hk|]. intros k r Hk H1 H2. apply filter_In in H1 as (H1 & _). eapply Hm; [right; exact Hk|exact H1|exact H2].
Qed.
Lemma moves_clear : forall T f, quiet T f -> small (f_buf (mf_clear f)) -> moves (f_cb f) (f_buf f) (f_buf (mf_clear f)).
Proof.
  intros T f Q Sm. unfold mf_clear in *. set (b1 := removeTransformableCallback (f_buf f) (f_cb f)) in *.
  assert (N1 : next (f_buf f) (RRemoveCallback (f_cb f)) = b1) by reflexivity.
  destruct (addTransformableCallback b1) as [b2 h] eqn:E. cbn [f_buf] in *.
  assert (N2 : next b1 RAddCallback = b2) by (unfold next; cbn [req_step]; rewrite E; reflexivity).
  eapply moves_cons with (o := RRemoveCallback (f_cb f)); [reflexivity|split; [apply (q_cb_range T f Q)|exact Logic.I]| |rewrite N1].
  - rewrite N1. split; [apply (q_ctr T f Q)|]. pose proof (q_len T f Q). pose proof (filter_len (fun k => negb (k =? f_cb f)) (b_cbs (f_buf f))). unfold p2_32 in *. cbn [b1 removeTransformableCallback b_cbs]. lia.
  - eapply moves_cons with (o := RAddCallback); [exact Logic.I|split; exact Logic.I|rewrite N2; exact Sm|rewrite N2; apply moves_nil].
Qed.
Lemma view_in : forall b r, In r (b_reqs b) -> In (view (b_core b) r) (pending b).
Proof. intros b r H. unfold pending. apply in_map. exact H. Qed.
Lemma moves_add : forall T f fr st, quiet T f -> 0 <= st -> st + T + c_cache_time (b_core (f_buf f)) < time_bound ->
  small (f_buf (fst (mf_add f fr st))) -> moves (f_cb f) (f_buf f) (f_buf (fst (mf_add f fr st))).
Proof.
  intros T f fr st Q H0 H1 Sm. unfold mf_add, add_begin in *. change (f_targets (note_added f fr st)) with (f_targets f) in *. change (f_tol (note_added f fr st)) with (f_tol f) in *.
  change (f_buf (note_added f fr st)) with (f_buf f) in *. change (f_cb (note_added f fr st)) with (f_cb f) in *.
  revert Sm. destruct (f_targets f) as [|t0 ts] eqn:Et; [intros _; apply moves_nil|]. rewrite <- Et. clear Et t0 ts.
  unfold mf_stripSlash. destruct (String.eqb (stripSlash fr) ""); [intros _; apply moves_nil|].
  pose proof (q_ctr T f Q) as Qc. pose proof (q_targets T f Q) as Qt. pose proof (q_tol T f Q) as Qtol.
  pose proof (fun A => moves_requests (f_targets f) (f_buf f) (f_cb f) (stripSlash fr) st (f_tol f) (0%nat, []) (q_inv T f Q) (q_cb_range T f Q) A H0) as Mv.
  destruct (add_requests_calm (f_targets f) (f_buf f) (f_cb f) (stripSlash fr) st (f_tol f) (0%nat, [])) as (b & r & news & E & I & C1 & C2 & C3 & C4 & P & F & R);
    [apply (q_inv T f Q)|apply (q_cb_range T f Q)|unfold uint64, p2_32 in *; lia|assumption|lia|lia|].
  rewrite E in *. cbn [fst] in Mv.
  assert (Mv' : small b -> moves (f_cb f) (f_buf f) b) by (intros Sb; apply Mv; [unfold uint64, p2_32 in *; lia|lia|lia|exact Sb]). clear Mv.
  destruct r as [[n hs]|]; cbn [fst f_buf emit with_buf]; [|intros Sm; apply Mv'; exact Sm].
  unfold add_finish. destruct (Nat.eqb _ _); cbn [emit f_buf with_buf note_added]; [intros Sm; apply Mv'; exact Sm|].
  cbn [f_qsize f_msgs with_buf note_added]. destruct (_ && _); [|cbn [with_msgs f_buf with_buf]; intros Sm; apply Mv'; exact Sm].
  destruct (f_msgs f) as [|front rest] eqn:Em; [cbn [with_msgs f_buf with_buf]; intros Sm; apply Mv'; exact Sm|].
  cbn [with_msgs f_buf emit with_buf]. intros Sm.
  assert (Hh : forall h, In h (mi_handles front) -> 1 <= h <= b_rq_counter (f_buf f)) by (intros h; apply (q_handles T f Q); rewrite Em; left; reflexivity).
  assert (Sb : small b).
  { assert (X : forall hs b0, b_rq_counter (fold_left cancelTransformableRequest hs b0) = b_rq_counter b0 /\ b_cbs (fold_left cancelTransformableRequest hs b0) = b_cbs b0).
    { clear. induction hs as [|h hs IH]; intros b0; [auto|]. cbn [fold_left]. rewrite (proj1 (IH _)), (proj2 (IH _)). auto. }
    unfold small in *. rewrite (proj1 (X _ _)), (proj2 (X _ _)) in Sm. exact Sm. }
  eapply moves_app; [apply Mv'; exact Sb|]. apply moves_cancel; [exact Sb|intros h Hin; specialize (Hh h Hin); unfold uint64, p2_32 in *; lia|].
  intros h r Hin Hr Eh. specialize (Hh h Hin). rewrite Z.mod_small in Eh by (unfold uint32, p2_32 in *; lia).
  pose proof (view_in b r Hr) as Hv. rewrite P in Hv. apply in_app_iff in Hv as [Hv|Hv].
  - destruct (q_mine T f Q front _ ltac:(rewrite Em; left; reflexivity) Hv) as (X & _); [cbn [view p_handle]; rewrite Eh; exact Hin|]. exact X.
  - rewrite Forall_forall in F. destruct (F _ Hv) as (_ & X & _). cbn [view p_handle] in X. lia.
Qed.
Lemma moves_own : forall T f o, quiet T f -> own_call o = true -> calm_op T f o -> small (f_buf (mf_step f o)) -> moves (f_cb f) (f_buf f) (f_buf (mf_step f o)).
Proof.
  intros T f o Q Ow Co Sm. destruct o as [fr st|l|d|n| | |m a st read|o]; cbn [mf_step own_call calm_op] in *; try discriminate; try apply moves_nil.
  - apply (moves_add T); try assumption; apply Co.
  - apply (moves_clear T); assumption.
  - unfold mf_spin. destruct (f_outbox f); apply moves_nil.
Qed.

(** ** The world *)
Lemma calm_reach : forall T f, calm T f -> mf_reachable f.
Proof.
  intros T f C. induction C as [b target q cbq f H0 Hb Ht Hc Hl E|f o C (b & target & q & cbq & f0 & ops & E & ->) Ho Hc Hl].
  - exists b, target, q, cbq, f, []. split; [exact E|reflexivity].
  - exists b, target, q, cbq, f0, (ops ++ [o]). split; [exact E|]. clear. revert f0. induction ops as [|o' ops IH]; intros f0; [reflexivity|]. cbn [app mf_run]. apply IH.
Qed.
Lemma set_nth_same : forall {A} (l : list A) k x, (k < List.length l)%nat -> nth_error (set_nth l k x) k = Some x.
Proof. induction l as [|y l IH]; intros k x H; [cbn in H; lia|]. destruct k; [reflexivity|]. cbn [set_nth nth_error]. apply IH. cbn in H. lia. Qed.
Lemma set_nth_other : forall {A} (l : list A) k j x, j <> k -> nth_error (set_nth l k x) j = nth_error l j.
Proof. induction l as [|y l IH]; intros k j x H; [reflexivity|]. destruct k, j; try reflexivity; [congruence|]. cbn [set_nth nth_error]. apply IH. congruence. Qed.
Lemma seen_lt : forall w k f, seen w k = Some f -> (k < List.length (w_filters w))%nat.
Proof. intros w k f H. unfold seen in H. destruct (nth_error (w_filters w) k) eqn:E; [|discriminate]. apply nth_error_Some. congruence. Qed.
Lemma seen_buf : forall w k f, seen w k = Some f -> f_buf f = w_buf w.
Proof. intros w k f H. unfold seen in H. destruct (nth_error (w_filters w) k) as [[g|]|]; inversion H; subst. reflexivity. Qed.
Lemma with_buf_id : forall f, with_buf f (f_buf f) = f.
Proof. intros []. reflexivity. Qed.
Lemma seen_put : forall w k f g, seen w k = Some f -> seen (put w k g) k = Some g.
Proof. intros w k f g H. unfold seen, put. cbn [w_filters w_buf]. rewrite set_nth_same by (eapply seen_lt; eassumption). rewrite with_buf_id. reflexivity. Qed.
Lemma seen_put_other : forall w k j g, j <> k -> seen (put w k g) j = option_map (fun f => with_buf f (f_buf g)) (seen w j).
Proof. intros w k j g H. unfold seen, put. cbn [w_filters w_buf]. rewrite set_nth_other by assumption. destruct (nth_error (w_filters w) j) as [[f|]|]; reflexivity. Qed.

Definition apart w : Prop := forall j k f g, j <> k -> seen w j = Some f -> seen w k = Some g -> f_cb f <> f_cb g.
Record winv (T : duration) w : Prop := {
  wi_T : 0 <= T;
  wi_reach : req_reachable (w_buf w);
  wi_times : times_in_range (w_buf w);
  wi_ctr : b_rq_counter (w_buf w) < 2 ^ 32;
  wi_len : Z.of_nat (List.length (b_cbs (w_buf w))) < 2 ^ 32 - 1;
  wi_calm : forall k f, seen w k = Some f -> calm T f;
  wi_apart : apart w;
  wi_named : forall p, In p (pending (w_buf w)) -> In (p_cb p) (b_cbs (w_buf w));
  wi_dead : forall h, In h (w_dead w) -> In h (b_cbs (w_buf w)) /\ (forall p, In p (pending (w_buf w)) -> p_cb p <> h) /\ (forall k f, seen w k = Some f -> f_cb f <> h);
  wi_once : NoDup (w_dead w)
}.
Lemma wi_quiet : forall T w k f, winv T w -> seen w k = Some f -> quiet T f.
Proof. intros T w k f I H. apply calm_quiet. eapply wi_calm; eassumption. Qed.
Lemma wi_cb : forall T w k f, winv T w -> seen w k = Some f -> In (f_cb f) (b_cbs (w_buf w)).
Proof. intros T w k f I H. pose proof (q_cb T f (wi_quiet T w k f I H)) as X. rewrite (seen_buf _ _ _ H) in X. exact X. Qed.
Lemma owner_in : forall fs cb k, owner fs cb = Some k -> exists f, nth_error fs k = Some (Some f) /\ f_cb f = cb.
Proof.
  induction fs as [|[f|] fs IH]; intros cb k H; cbn [owner] in H; [discriminate| |].
  - destruct (Z.eqb_spec cb (f_cb f)) as [E|E]; [inversion H; subst; exists f; auto|]. destruct (owner fs cb) as [k'|] eqn:Eo; [|discriminate]. inversion H; subst. apply IH; assumption.
  - destruct (owner fs cb) as [k'|] eqn:Eo; [|discriminate]. inversion H; subst. apply IH; assumption.
Qed.
Lemma owner_none : forall fs cb k f, owner fs cb = None -> nth_error fs k = Some (Some f) -> f_cb f <> cb.
Proof.
  induction fs as [|[g|] fs IH]; intros cb k f H E; [destruct k; discriminate| |]; cbn [owner] in H.
  - destruct (Z.eqb_spec cb (f_cb g)) as [Eg|Eg]; [discriminate|]. destruct (owner fs cb) eqn:Eo; [discriminate|]. destruct k; cbn [nth_error] in E; [inversion E; subst; congruence|eapply IH; eassumption].
  - destruct (owner fs cb) eqn:Eo; [discriminate|]. destruct k; cbn [nth_error] in E; [discriminate|eapply IH; eassumption].
Qed.
Lemma owner_seen : forall w cb k, owner (w_filters w) cb = Some k -> exists f, seen w k = Some f /\ f_cb f = cb.
Proof. intros w cb k H. destruct (owner_in _ _ _ H) as (f & E & Ef). exists (with_buf f (w_buf w)). unfold seen. rewrite E. auto. Qed.
Lemma owner_none_seen : forall w cb k f, owner (w_filters w) cb = None -> seen w k = Some f -> f_cb f <> cb.
Proof. intros w cb k f H E. unfold seen in E. destruct (nth_error (w_filters w) k) as [[g|]|] eqn:En; inversion E; subst. cbn [with_buf f_cb]. eapply owner_none; eassumption. Qed.

(** a step by the client whose handle is [cb]: the filters with another handle *)
Lemma others_see : forall T w cb b', winv T w -> moves cb (w_buf w) b' ->
  forall k f, seen w k = Some f -> f_cb f <> cb ->
  calm T (with_buf f b') /\ exists ops, Forall is_other ops /\ mf_run f ops = with_buf f b'.
Proof.
  intros T w cb b' I M k f H N. assert (E : with_buf f (w_buf w) = f) by (rewrite <- (seen_buf _ _ _ H); apply with_buf_id).
  destruct (moves_sim T f cb (w_buf w) b' N M) as (C & ops & F & R); [rewrite E; eapply wi_calm; eassumption|]. rewrite E in R. split; [exact C|]. exists ops. auto.
Qed.

(** callbacks *)
Lemma transformable_keeps : forall f h r, f_buf (fst (mf_transformable f h r)) = f_buf f /\ f_cb (fst (mf_transformable f h r)) = f_cb f.
Proof.
  intros f h r. unfold mf_transformable. destruct (find_info h (f_msgs f)) as [[[l1 i0] l2]|]; [|auto]. cbn zeta.
  destruct (Nat.ltb _ _); [auto|]. destruct (match r with TransformAvailable => _ | TransformFailure => _ end) as [[|]| |]; auto.
Qed.
Lemma fire_keeps : forall evs f read, f_buf (fst (fire f evs read)) = f_buf f /\ f_cb (fst (fire f evs read)) = f_cb f.
Proof.
  induction evs as [|e evs IH]; intros f read; [auto|]. cbn [fire]. destruct (_ =? _); [|apply IH].
  pose proof (transformable_keeps f (ev_handle e) (read O)) as K. destruct (mf_transformable f (ev_handle e) (read O)) as [f1 [u|c x|]]; cbn [fst] in *; [|exact K|exact K].
  destruct (IH f1 (fun k => read (Datatypes.S k))) as (A & B). destruct K as (K1 & K2). rewrite A, B. auto.
Qed.
Lemma fire_all_each : forall evs w read, apart w -> (forall e, In e evs -> ~ In (ev_cb e) (w_dead w)) ->
  (forall k f, seen w k = Some f -> snd (fire f evs read) = Ok tt) ->
  exists w', fire_all w evs read = (w', Ok tt) /\ w_buf w' = w_buf w /\ w_dead w' = w_dead w /\
    forall k, seen w' k = option_map (fun f => fst (fire f evs read)) (seen w k).
Proof.
  induction evs as [|e evs IH]; intros w read Ap Nd Ok0.
  - exists w. cbn [fire_all]. repeat split. intros k. cbn [fire fst]. destruct (seen w k); reflexivity.
  - cbn [fire_all]. assert (Dn : existsb (Z.eqb (ev_cb e)) (w_dead w) = false).
    { destruct (existsb _ _) eqn:E; [|reflexivity]. apply existsb_In in E. exfalso. apply (Nd e); [left; reflexivity|exact E]. }
    rewrite Dn. destruct (owner (w_filters w) (ev_cb e)) as [j|] eqn:Eo.
    + destruct (owner_seen w _ j Eo) as (f & Sf & Ef). rewrite Sf. pose proof (Ok0 j f Sf) as Of. cbn [fire] in Of. rewrite (proj2 (Z.eqb_eq (ev_cb e) (f_cb f)) (eq_sym Ef)) in Of.
      pose proof (transformable_keeps f (ev_handle e) (read O)) as K. destruct (mf_transformable f (ev_handle e) (read O)) as [f1 [u|c x|]] eqn:Et; [|discriminate Of|discriminate Of]. cbn [fst] in K. destruct K as (K1 & K2).
      assert (So : forall k, k <> j -> seen (put w j f1) k = seen w k).
      { intros k Hk. rewrite seen_put_other by exact Hk. destruct (seen w k) as [g|] eqn:Sg; [|reflexivity]. cbn [option_map]. rewrite K1, (seen_buf _ _ _ Sf), <- (seen_buf _ _ _ Sg), with_buf_id. reflexivity. }
      assert (Sj : seen (put w j f1) j = Some f1) by (eapply seen_put; eassumption).
      assert (Ot : forall k g, k <> j -> seen w k = Some g -> f_cb g <> ev_cb e) by (intros k g Hk Hg; rewrite <- Ef; apply (Ap k j g f); assumption).
      destruct (IH (put w j f1) (fun k => read (Datatypes.S k))) as (w' & F & B & D & Each).
      * intros a c fa fc Hac Ha Hc. destruct (Nat.eq_dec a j) as [->|Na].
        -- rewrite Sj in Ha. inversion Ha; subst fa. rewrite So in Hc by congruence. rewrite K2. apply (Ap j c f fc); assumption.
        -- rewrite So in Ha by exact Na. destruct (Nat.eq_dec c j) as [->|Nc]; [rewrite Sj in Hc; inversion Hc; subst fc; rewrite K2; apply (Ap a j fa f); assumption|].
           rewrite So in Hc by exact Nc. apply (Ap a c); assumption.
      * intros e' He'. apply Nd. right. exact He'.
      * intros k g Hg. destruct (Nat.eq_dec k j) as [->|Nk].
        -- rewrite Sj in Hg. inversion Hg; subst g. exact Of.
        -- rewrite So in Hg by exact Nk. pose proof (Ok0 k g Hg) as Og. cbn [fire] in Og. rewrite (proj2 (Z.eqb_neq (ev_cb e) (f_cb g))) in Og by (intros X; eapply Ot; eauto). exact Og.
      * exists w'. split; [exact F|]. split; [rewrite B; cbn [put w_buf]; rewrite K1; eapply seen_buf; eassumption|]. split; [exact D|].
        intros k. rewrite Each. destruct (Nat.eq_dec k j) as [->|Nk].
        -- rewrite Sj, Sf. cbn [option_map fire]. rewrite (proj2 (Z.eqb_eq (ev_cb e) (f_cb f)) (eq_sym Ef)), Et. reflexivity.
        -- rewrite So by exact Nk. destruct (seen w k) as [g|] eqn:Sg; [|reflexivity]. cbn [option_map fire]. rewrite (proj2 (Z.eqb_neq (ev_cb e) (f_cb g))) by (intros X; eapply Ot; eauto). reflexivity.
    + assert (Ot : forall k g, seen w k = Some g -> f_cb g <> ev_cb e) by (intros k g Hg; eapply owner_none_seen; eassumption).
      destruct (IH w (fun k => read (Datatypes.S k))) as (w' & F & B & D & Each).
      * exact Ap.
      * intros e' He'. apply Nd. right. exact He'.
      * intros k g Hg. pose proof (Ok0 k g Hg) as Og. cbn [fire] in Og. rewrite (proj2 (Z.eqb_neq (ev_cb e) (f_cb g))) in Og by (intros X; eapply Ot; eauto). exact Og.
      * exists w'. split; [exact F|]. split; [exact B|]. split; [exact D|]. intros k. rewrite Each. destruct (seen w k) as [g|] eqn:Sg; [|reflexivity]. cbn [option_map fire].
        rewrite (proj2 (Z.eqb_neq (ev_cb e) (f_cb g))) by (intros X; eapply Ot; eauto). reflexivity.
Qed.
End P.
