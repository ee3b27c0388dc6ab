(** * What the error texts say *)
From Coq Require Import ZArith Bool List String Lia Arith.
From Verif Require Import RosTime Scalar LinearMath Cache SpecCache CacheProofs CacheQueries
  BufferCore SpecCore CoreInv Naturality CoreSet WalkSpec LctSpec Bridge WalkMain Sim Forget LookupBase LookupTheorems LookupTree LookupFail SpecErrors.
Import ListNotations.
Open Scope Z_scope.
Open Scope string_scope.
Local Opaque MAX_GRAPH_DEPTH.

Section P.
Context {S : Scalar}.
Notation storage := (storage S nat).
Notation core := (core S).
Notation taccum := (@taccum S).
Implicit Types (s : core) (i : nat) (t : time) (tgt src : string).
Notation nm s := (map_storage (name_of s)).

Lemma sam_map : forall {A B} (f : A -> B) (c : cache S A), samples (map_cache f c) = map (map_storage f) (samples c).
Proof. intros A B f [max l|[x|]]; reflexivity. Qed.

Lemma gather_gap : forall s t i c a a' p e, wf s -> live s i -> getFrame s i = Some c -> lnk s t i = None ->
  ta_gather a c t (Some EEmpty) = Ok (a', p, e) -> exists x, e = Some x /\ gap s t (name_of s i) x.
Proof.
  intros s t i c a a' p e W L Ec N H.
  destruct (wf_cache s W _ _ Ec) as (Hok & _ & _).
  pose proof (hist_frame s i c W (proj1 L) Ec) as Hh.
  unfold ta_gather in H. 
  destruct (getData_err Nat.eqb c t (Some EEmpty) Hok) as [(d & E1 & E2)|[E1 E2]].
  - rewrite E2 in H. cbn in H. injection H as _ Hp He. subst e. exists EEmpty. split; [reflexivity|].
    unfold lnk, idata in N. rewrite Ec, E1 in N. destruct (Nat.eqb (st_frame d) 0) eqn:Z; [|discriminate].
    apply Nat.eqb_eq in Z.
    apply (gap_reserved s t _ (nm s d)).
    + rewrite (sample_idata s t i W L). unfold idata. rewrite Ec, E1. reflexivity.
    + cbn. rewrite Z. unfold name_of. pose proof (wf_root s W) as R. apply nth_error_nth. exact R.
  - destruct c as [max l|o]; [|destruct Hok as [x ->]; cbn in E1; discriminate].
    destruct Hok as [Hm (Nf & Wd & Ps)]. cbn [getData] in H, E1.
    destruct l as [|f l].
    { cbn in H. injection H as _ _ <-. exists EEmpty. split; [reflexivity|]. eapply gap_nothing; [exact Hh|]. reflexivity. }
    assert (In_old : forall z, In z (f :: l) -> st_stamp (last l f) <= st_stamp z <= st_stamp f).
    { intros z Hz. split.
      - clear - Nf Hz. revert f Nf Hz. induction l as [|g l IH]; intros f Nf Hz; [cbn in *; destruct Hz as [<-|[]]; lia|].
        apply nf_inv in Nf as [Nf1 Nf2]. assert (El : last (g :: l) f = last l g) by (clear; revert g; induction l as [|h l IH]; intros g; [reflexivity|cbn in *; destruct l; auto]).
        rewrite El. destruct Hz as [<-|Hz]; [|apply IH; assumption].
        assert (In (last l g) (g :: l)) by apply last_in. specialize (Nf2 _ H). lia.
      - destruct Hz as [<-|Hz]; [lia|]. apply nf_inv in Nf as [_ Nf2]. specialize (Nf2 _ Hz). lia. }
    destruct (position f l t Nf) as [->|[(Ht & E)|[(Ht & E & _)|[(Ht & B)|[(Ht & Lt)|(Ht & Lt)]]]]].
    + rewrite find_zero in E1. discriminate.
    + rewrite find_newest in E1 by assumption. discriminate.
    + rewrite find_oldest in E1 by assumption. discriminate.
    + exfalso. destruct (find_between f l t None Nf Ht B) as (o & n & l1 & l2 & El & B' & E3). rewrite E3 in E1. cbn in E1.
      destruct (Nat.eqb (st_frame o) (st_frame n)); [|discriminate].
      destruct (interpolate o n t); discriminate.
    + rewrite find_future in H by assumption. destruct l as [|g l].
      * cbn in H. injection H as _ _ <-. eexists. split; [reflexivity|].
        apply (gap_only s t (name_of s i) _ (nm s f) Hh); [reflexivity|cbn; lia|assumption].
      * unfold extrap2 in H. destruct (time_sub t (st_stamp f)); [|discriminate]. cbn in H. injection H as _ _ <-.
        eexists. split; [reflexivity|].
        apply (gap_future s t (name_of s i) _ (nm s f) (nm s g) (map (nm s) l) Hh); [reflexivity|assumption| |assumption].
        intros z Hz. rewrite sam_map in Hz. apply in_map_iff in Hz as (z' & <- & Hz). apply In_old. exact Hz.
    + rewrite find_past in H by assumption. destruct l as [|g l].
      * cbn in Lt. cbn in H. injection H as _ _ <-. eexists. split; [reflexivity|].
        apply (gap_only s t (name_of s i) _ (nm s f) Hh); [reflexivity|cbn; lia|assumption].
      * unfold extrap3 in H. destruct (time_sub (st_stamp (last (g :: l) f)) t); [|discriminate]. cbn [lift_time bind] in H. injection H as _ _ <-.
        eexists. split; [reflexivity|].
        apply (gap_past s t (name_of s i) _ (nm s (last (g :: l) f)) Hh).
        -- rewrite sam_map. cbn. lia.
        -- assumption.
        -- rewrite sam_map. apply in_map. apply last_in.
        -- intros z Hz. rewrite sam_map in Hz. apply in_map_iff in Hz as (z' & <- & Hz). apply In_old. exact Hz.
        -- assumption.
Qed.

(** The source walk stops with the text of the frame it stopped at. *)
Lemma walkSource_text : forall fuel s t target frame top a chain a' m e might ch, wf s -> live s frame ->
  walkSource ta_gather ta_accum ta_finalize fuel s t target frame top a (Some EEmpty) chain = Ok (STop a' m e might ch) ->
  exists ds, iclimb s t frame ds m /\ lnk s t m = None /\
    (might = true -> getFrame s m <> None /\ exists x, e = Some x /\ gap s t (name_of s m) x) /\
    (might = false -> getFrame s m = None).
Proof.
  induction fuel as [|fuel IH]; intros s t target frame top a chain a' m e might ch W L; cbn [walkSource];
    rewrite (proj2 (Nat.eqb_neq _ _) (proj1 L)); destruct (getFrame s frame) as [c|] eqn:Ec.
  2,4: intros H; injection H as <- <- <- <- <-; exists []; split; [constructor|]; split; [unfold lnk, idata; rewrite Ec; reflexivity|]; split; [discriminate|auto].
  all: destruct (lnk s t frame) as [d|] eqn:Ed;
    [ rewrite (gather_link s t frame c d W Ec Ed); cbn [bind];
      rewrite (proj2 (Nat.eqb_neq _ _) (proj1 (lnk_live s t frame d W Ed)));
      destruct (Nat.eqb frame target); [discriminate|] | ].
  1: discriminate.
  2: { intros H. apply IH in H as (ds & H1 & H2 & H3 & H4); [|assumption|eapply lnk_live; eassumption].
       exists (d :: ds). split; [econstructor; eassumption|auto]. }
  all: destruct (ta_gather a c t (Some EEmpty)) as [[[a1 p1] e1]| |] eqn:Eg; cbn [bind]; try discriminate;
    destruct (gather_nolink s t frame c W Ec Ed a (Some EEmpty)) as [(a2 & e2 & E2 & _)|(_ & E2)]; rewrite E2 in Eg; try discriminate;
    injection Eg as <- <- <-; cbn [Nat.eqb]; intros H; injection H as <- <- <- <- <-;
    destruct (gather_gap s t frame c a _ _ _ W L Ec Ed E2) as (x & -> & G);
    (exists []; split; [constructor|]; split; [assumption|]; split; [intros _; split; [congruence|eauto]|discriminate]).
Qed.

Lemma walkTarget_text : forall fuel s t source top frame a rchain r, wf s -> live s frame ->
  walkTarget ta_gather ta_accum ta_finalize fuel s t source top frame a (Some EEmpty) rchain = Ok r ->
  match r with
  | TExtrap e => exists ds m x, iclimb s t frame ds m /\ lnk s t m = None /\ getFrame s m <> None /\ e = Some x /\ gap s t (name_of s m) x
  | TStop _ m e _ => e = Some EEmpty /\ (m <> top -> exists ds, iclimb s t frame ds m /\ lnk s t m = None /\ getFrame s m = None)
  | TLoop e => e = Some EEmpty
  | TDone _ _ => True
  end.
Proof.
  induction fuel as [|fuel IH]; intros s t source top frame a rchain r W L; cbn [walkTarget];
    (destruct (Nat.eqb frame top) eqn:Et; [apply Nat.eqb_eq in Et; intros H; injection H as <-; split; [reflexivity|congruence]|]);
    destruct (getFrame s frame) as [c|] eqn:Ec.
  2,4: intros H; injection H as <-; split; [reflexivity|]; intros _; exists []; split; [constructor|]; split; [unfold lnk, idata; rewrite Ec; reflexivity|assumption].
  all: destruct (lnk s t frame) as [d|] eqn:Ed;
    [ rewrite (gather_link s t frame c d W Ec Ed); cbn [bind];
      rewrite (proj2 (Nat.eqb_neq _ _) (proj1 (lnk_live s t frame d W Ed)));
      destruct (Nat.eqb frame source); [intros H; injection H as <-; exact I|] | ].
  1: intros H; injection H as <-; reflexivity.
  2: { intros H. apply IH in H; [|assumption|eapply lnk_live; eassumption]. destruct r as [ | | |]; auto.
       - destruct H as [H1 H2]. split; [assumption|]. intros N. destruct (H2 N) as (ds & H3 & H4). exists (d :: ds). split; [econstructor; eassumption|auto].
       - destruct H as (ds & m & x & H1 & H2). exists (d :: ds), m, x. split; [econstructor; eassumption|auto]. }
  all: destruct (ta_gather a c t (Some EEmpty)) as [[[a1 p1] e1]| |] eqn:Eg; cbn [bind]; try discriminate;
    destruct (gather_nolink s t frame c W Ec Ed a (Some EEmpty)) as [(a2 & e2 & E2 & _)|(_ & E2)]; rewrite E2 in Eg; try discriminate;
    injection Eg as <- <- <-; cbn [Nat.eqb]; intros H; injection H as <-;
    destruct (gather_gap s t frame c a _ _ _ W L Ec Ed E2) as (x & -> & G);
    (exists [], frame, x; split; [constructor|]; split; [assumption|]; split; [congruence|auto]).
Qed.

Notation walk_at := (@walk_at S taccum ta_gather ta_accum ta_finalize).

Definition blames s t j i x : Prop :=
  exists ms mt, tops_at s t (name_of s j) ms /\ tops_at s t (name_of s i) mt /\
    ((hist s mt <> None /\ gap s t mt x) \/ (hist s mt = None /\ hist s ms <> None /\ gap s t ms x)).

Lemma loop_text : forall s err err', loop_error s (Some err) = Ok err' -> exists str, allFramesAsString s = Ok str /\ err' = Some (ELoop str).
Proof. intros s err err' H. cbn in H. destruct (allFramesAsString s); try discriminate. cbn in H. injection H as <-. eauto. Qed.

(** Whatever the walk reports, the text is right. *)
Lemma walk_at_text : forall s t i j code a e ch, wf s -> live s i -> live s j ->
  walk_at s t i j taccum0 (Some EEmpty) = Ok (code, a, e, ch) ->
  match code with
  | NO_ERROR => e = Some EEmpty
  | EXTRAPOLATION_ERROR => exists x, e = Some (EWhenLookingUp x (name_of s j) (name_of s i)) /\ blames s t j i x
  | CONNECTIVITY_ERROR => e = Some (EConnectivity (name_of s i) (name_of s j))
  | LOOKUP_ERROR => exists str, allFramesAsString s = Ok str /\ e = Some (ELoop str)
  | _ => False
  end.
Proof.
  intros s t i j code a e ch W Li Lj. unfold WalkMain.walk_at.
  destruct (walkSource _ _ _ _ s t i j j taccum0 (Some EEmpty) []) as [[a1 c1|a1 top ext might chain|]| |] eqn:Es; cbn [bind]; try discriminate.
  - intros H; injection H as <- <- <- <-. reflexivity.
  - apply walkSource_text in Es as (ds & Cs & Ns & M1 & M2); try assumption.
    destruct (walkTarget _ _ _ _ s t j top i a1 (Some EEmpty) []) as [r| |] eqn:Et; cbn [bind]; try discriminate.
    apply walkTarget_text in Et; try assumption. destruct r as [a2 rc|a2 f e2 rc|e2|e2].
    + intros H; injection H as <- <- <- <-. reflexivity.
    + destruct Et as [-> Et]. destruct (Nat.eqb f top) eqn:Ef.
      * destruct (prune_chain chain (rc ++ [f])); try discriminate. cbn [bind]. intros H; injection H as <- <- <- <-. reflexivity.
      * apply Nat.eqb_neq in Ef. destruct (Et Ef) as (dt & Ct & Nt & Gt).
        destruct (iclimb_tops s t j ds top W Lj Cs Ns) as [Ts Ltop]. destruct (iclimb_tops s t i dt f W Li Ct Nt) as [Tt Lf].
        destruct might.
        -- rewrite when_ok by assumption. cbn [bind]. intros H; injection H as <- <- <- <-.
           destruct (M1 eq_refl) as [G1 (x & -> & G2)]. exists x. split; [reflexivity|].
           exists (name_of s top), (name_of s f). split; [assumption|]. split; [assumption|]. right.
           split; [apply hist_getFrame; assumption|]. split; [|assumption]. rewrite hist_getFrame by assumption. assumption.
        -- rewrite connectivity_ok by assumption. cbn [bind]. intros H; injection H as <- <- <- <-. reflexivity.
    + destruct Et as (dt & m & x & Ct & Nt & Gt & -> & G).
      destruct (iclimb_tops s t j ds top W Lj Cs Ns) as [Ts Ltop]. destruct (iclimb_tops s t i dt m W Li Ct Nt) as [Tt Lm].
      rewrite when_ok by assumption. cbn [bind]. intros H; injection H as <- <- <- <-. exists x. split; [reflexivity|].
      exists (name_of s top), (name_of s m). split; [assumption|]. split; [assumption|]. left. split; [|assumption].
      rewrite hist_getFrame by assumption. assumption.
    + subst e2. destruct (loop_error s (Some EEmpty)) as [e'| |] eqn:El; try discriminate. cbn [bind]. intros H; injection H as <- <- <- <-.
      apply loop_text in El. exact El.
  - destruct (loop_error s (Some EEmpty)) as [e'| |] eqn:El; try discriminate. cbn [bind]. intros H; injection H as <- <- <- <-.
    apply loop_text in El. exact El.
Qed.

Lemma lct_code_text : forall s i j code ot e, wf s -> live s i -> live s j -> j <> i ->
  getLatestCommonTime s i j (Some EEmpty) = Ok (code, ot, e) ->
  match code with
  | NO_ERROR => e = Some EEmpty /\ exists r, ot = Some r /\ getLatestCommonTime s i j None = Ok (NO_ERROR, Some r, None)
  | CONNECTIVITY_ERROR => e = Some (EConnectivity (name_of s i) (name_of s j))
  | LOOKUP_ERROR => exists str, allFramesAsString s = Ok str /\ e = Some (ELoop str)
  | _ => False
  end.
Proof.
  intros s i j code ot e W Li Lj Ne. unfold getLatestCommonTime.
  rewrite (proj2 (Nat.eqb_neq _ _) (proj1 Li)), (proj2 (Nat.eqb_neq _ _) (proj1 Lj)), (proj2 (Nat.eqb_neq _ _) Ne). cbn [orb].
  destruct (lctSource MAX_GRAPH_DEPTH s i j TIME_MAX []) as [[t|l|]| |]; cbn [bind]; try discriminate.
  - intros H; injection H as <- <- <-. split; [reflexivity|]. eauto.
  - destruct (lctTarget MAX_GRAPH_DEPTH s j l i TIME_MAX) as [[t|p t| |]| |]; cbn [bind]; try discriminate.
    + intros H; injection H as <- <- <-. split; [reflexivity|]. eauto.
    + intros H; injection H as <- <- <-. split; [reflexivity|]. eauto.
    + rewrite connectivity_ok by assumption. cbn [bind]. intros H; injection H as <- <- <-. reflexivity.
    + destruct (loop_error s (Some EEmpty)) as [e'| |] eqn:El; try discriminate. cbn [bind]. intros H; injection H as <- <- <-. apply loop_text in El. exact El.
  - destruct (loop_error s (Some EEmpty)) as [e'| |] eqn:El; try discriminate. cbn [bind]. intros H; injection H as <- <- <-. apply loop_text in El. exact El.
Qed.

Theorem lookup_text : forall s tgt src t cl e, reachable s -> plain tgt -> plain src -> known s tgt -> known s src -> tgt <> src ->
  lookupTransform s tgt src t = Throw cl e ->
  match cl with
  | ConnectivityException => e = EConnectivity tgt src
  | ExtrapolationException => exists x t', e = EWhenLookingUp x src tgt /\ resolves s tgt src t t' /\
      exists ms mt, tops_at s t' src ms /\ tops_at s t' tgt mt /\
        ((hist s mt <> None /\ gap s t' mt x) \/ (hist s mt = None /\ hist s ms <> None /\ gap s t' ms x))
  | LookupException => exists str, allFramesAsString s = Ok str /\ e = ELoop str
  | RuntimeError => e = ETimeRange
  | _ => False
  end.
Proof.
  intros s tgt src t cl e R P1 P2 K1 K2 Ne. apply reachable_wf in R as W. rewrite lookup_walk by assumption.
  unfold resolves, latest_common_time.
  destruct (known_ids s tgt src W K1 K2 Ne) as (i & j & Li & Lj & <- & <- & Ei & Ej & D). rewrite Ei, Ej.
  assert (At : forall u, (t = 0 -> getLatestCommonTime s i j None = Ok (NO_ERROR, Some u, None)) -> (t <> 0 -> u = t) ->
     finish (name_of s i) (name_of s j) (walk_at s u i j taccum0 (Some EEmpty)) = Throw cl e ->
     match cl with
     | ConnectivityException => e = EConnectivity (name_of s i) (name_of s j)
     | ExtrapolationException => exists x t', e = EWhenLookingUp x (name_of s j) (name_of s i) /\
        ((t <> 0 /\ t' = t) \/ (t = 0 /\ (' (code, ot, _) <- getLatestCommonTime s i j None ;; Ok (code, ot)) = Ok (NO_ERROR, Some t'))) /\
        exists ms mt, tops_at s t' (name_of s j) ms /\ tops_at s t' (name_of s i) mt /\
        ((hist s mt <> None /\ gap s t' mt x) \/ (hist s mt = None /\ hist s ms <> None /\ gap s t' ms x))
     | LookupException => exists str, allFramesAsString s = Ok str /\ e = ELoop str
     | RuntimeError => e = ETimeRange
     | _ => False
     end).
  { intros u Hu Hu'. destruct (walk_at s u i j taccum0 (Some EEmpty)) as [[[[code a] e1] ch]|cl1 e1|] eqn:Ew; unfold finish; cbn [bind].
    - apply walk_at_text in Ew; try assumption. destruct code; try contradiction; try discriminate; cbn [throw_code]; intros H; injection H as <- <-.
      + destruct Ew as (str & Ha & ->). eauto.
      + rewrite Ew. reflexivity.
      + destruct Ew as (x & -> & B). exists x, u. split; [reflexivity|]. split.
        * destruct (Z.eq_dec t 0) as [T|T]; [right|left; auto]. split; [assumption|]. rewrite (Hu T). reflexivity.
        * exact B.
    - intros H; injection H as <- <-.
      destruct (walk_at_outcome s u i j (Some EEmpty) W Lj Li); unfold range_exn in *; try discriminate.
      injection Ew as <- <-. reflexivity.
    - discriminate. }
  destruct (Z.eq_dec t 0) as [->|T].
  - rewrite walk_zero by assumption.
    destruct (getLatestCommonTime s i j (Some EEmpty)) as [[[code ot] e1]|cl1 e1|] eqn:El; cbn [bind].
    + apply lct_code_text in El; try assumption. destruct code; try contradiction; cbn [throw_code finish bind].
      * destruct El as [-> (r & -> & El)]. apply At; [auto|congruence].
      * destruct El as (str & Ha & ->). intros H; injection H as <- <-. eauto.
      * subst e1. intros H; injection H as <- <-. reflexivity.
    + pose proof (lct_outcome_ok s i j (Some EEmpty) W Lj Li D) as O. rewrite El in O. inversion O.
    + pose proof (lct_outcome_ok s i j (Some EEmpty) W Lj Li D) as O. rewrite El in O. inversion O.
  - rewrite walk_time by assumption. apply At; [congruence|auto].
Qed.

(** canTransform says exactly what lookupTransform throws. *)
Theorem can_text : forall s tgt src t, reachable s -> plain tgt -> plain src -> known s tgt -> known s src -> tgt <> src ->
  canTransform s tgt src t (Some EEmpty) = verdict (lookupTransform s tgt src t).
Proof.
  intros s tgt src t R P1 P2 K1 K2 Ne. apply reachable_wf in R as W. rewrite lookup_walk, can_walk by assumption.
  destruct (known_ids s tgt src W K1 K2 Ne) as (i & j & Li & Lj & <- & <- & Ei & Ej & D). rewrite Ei, Ej.
  assert (At : forall u, (' (code, _, err', _) <- walk_at s u i j taccum0 (Some EEmpty) ;; Ok (match code with NO_ERROR => true | _ => false end, err'))
    = verdict (finish (name_of s i) (name_of s j) (walk_at s u i j taccum0 (Some EEmpty)))).
  { intros u. destruct (walk_at s u i j taccum0 (Some EEmpty)) as [[[[code a] e1] ch]|cl1 e1|] eqn:Ew; cbn [bind finish].
    - apply walk_at_text in Ew; try assumption. destruct code; try contradiction; cbn [throw_code verdict].
      + subst e1. reflexivity.
      + destruct Ew as (str & Ha & ->). reflexivity.
      + subst e1. reflexivity.
      + destruct Ew as (x & -> & _). reflexivity.
    - destruct (walk_at_outcome s u i j (Some EEmpty) W Lj Li); unfold range_exn in *; try discriminate.
      injection Ew as <- <-. reflexivity.
    - reflexivity. }
  destruct (Z.eq_dec t 0) as [->|T].
  - rewrite walk_zero by assumption.
    destruct (getLatestCommonTime s i j (Some EEmpty)) as [[[code ot] e1]|cl1 e1|] eqn:El; cbn [bind].
    + apply lct_code_text in El; try assumption. destruct code; try contradiction.
      * destruct El as [-> (r & -> & El)]. apply At.
      * destruct El as (str & Ha & ->). reflexivity.
      * subst e1. reflexivity.
    + pose proof (lct_outcome_ok s i j (Some EEmpty) W Lj Li D) as O. rewrite El in O. inversion O.
    + reflexivity.
  - rewrite walk_time by assumption. apply At.
Qed.
(** A successful canTransform leaves the caller's string alone. *)
Theorem can_true_silent : forall s tgt src t err e, reachable s ->
  canTransform s tgt src t err = Ok (true, e) -> e = err.
Proof.
  intros s tgt src t err e R. apply reachable_wf in R as W.
  destruct (String.eqb_spec tgt src) as [->|Ne]; [unfold canTransform; rewrite String.eqb_refl; intros H; injection H as <-; reflexivity|].
  destruct (plain_dec tgt) as [P1|P1].
  2:{ unfold canTransform. rewrite (proj2 (String.eqb_neq _ _) Ne). destruct (warnFrameId tgt) eqn:E; [discriminate|]. apply plain_warn in E. contradiction. }
  destruct (plain_dec src) as [P2|P2].
  2:{ unfold canTransform. rewrite (proj2 (String.eqb_neq _ _) Ne), (proj2 (plain_warn _) P1). destruct (warnFrameId src) eqn:E; [discriminate|]. apply plain_warn in E. contradiction. }
  destruct (known_dec s tgt) as [K1|K1].
  2:{ unfold canTransform. rewrite (proj2 (String.eqb_neq _ _) Ne), (proj2 (plain_warn _) P1), (proj2 (plain_warn _) P2), (lookupFrameNumber_unknown s _ W K1). cbn [Nat.eqb orb]. discriminate. }
  destruct (known_dec s src) as [K2|K2].
  2:{ unfold canTransform. rewrite (proj2 (String.eqb_neq _ _) Ne), (proj2 (plain_warn _) P1), (proj2 (plain_warn _) P2), (lookupFrameNumber_unknown s src W K2), orb_comm. cbn [Nat.eqb orb]. discriminate. }
  rewrite can_walk by assumption.
  destruct (known_ids s tgt src W K1 K2 Ne) as (i & j & Li & Lj & <- & <- & Ei & Ej & D). rewrite Ei, Ej.
  assert (At : forall u, (' (code, _, err', _) <- walk_at s u i j taccum0 err ;; Ok (match code with NO_ERROR => true | _ => false end, err')) = Ok (true, e) -> e = err).
  { intros u. destruct (walk_at_outcome s u i j err W Lj Li); unfold range_exn; cbn [bind]; try discriminate; try (intros H9; injection H9 as <-; reflexivity).
    subst code. destruct (getFrame s m'), (getFrame s m); discriminate. }
  destruct (Z.eq_dec t 0) as [->|T].
  - rewrite walk_zero by assumption. destruct (lct_outcome_ok s i j err W Lj Li D); cbn [bind]; try discriminate. apply At.
  - rewrite walk_time by assumption. apply At.
Qed.

(** ** refused and unknown names *)
Lemma validate_complaint : forall s arg n cl e, reachable s -> complaint s arg n cl e -> validateFrameId s arg n = Throw cl e.
Proof.
  intros s arg n cl e R [Hn|Hn Hs|P K]; unfold validateFrameId.
  - subst n. reflexivity.
  - destruct n; [congruence|]. cbn [is_empty]. rewrite Hs. reflexivity.
  - apply reachable_wf in R. apply validate_unknown; assumption.
Qed.
Lemma validate_usable : forall s arg n, reachable s -> plain n -> known s n -> exists i, validateFrameId s arg n = Ok i.
Proof. intros s arg n R P K. apply reachable_wf in R. rewrite validate_known by assumption. eauto. Qed.

Theorem lookup_complaint : forall s tgt src t cl e, reachable s -> tgt <> src ->
  (complaint s "lookupTransform argument target_frame" tgt cl e -> lookupTransform s tgt src t = Throw cl e) /\
  (plain tgt -> known s tgt -> complaint s "lookupTransform argument source_frame" src cl e -> lookupTransform s tgt src t = Throw cl e).
Proof.
  intros s tgt src t cl e R Ne. unfold lookupTransform. rewrite (proj2 (String.eqb_neq _ _) Ne). split.
  - intros C. rewrite (validate_complaint s _ _ _ _ R C). reflexivity.
  - intros P K C. destruct (validate_usable s "lookupTransform argument target_frame" tgt R P K) as [i ->]. cbn [bind].
    rewrite (validate_complaint s _ _ _ _ R C). reflexivity.
Qed.
Theorem lookup_fixed_complaint : forall s tgt t1 src t2 fix_ cl e, reachable s ->
  (complaint s "lookupTransform argument target_frame" tgt cl e -> lookupTransformFixed s tgt t1 src t2 fix_ = Throw cl e) /\
  (plain tgt -> known s tgt -> complaint s "lookupTransform argument source_frame" src cl e -> lookupTransformFixed s tgt t1 src t2 fix_ = Throw cl e) /\
  (plain tgt -> known s tgt -> plain src -> known s src -> complaint s "lookupTransform argument fixed_frame" fix_ cl e ->
   lookupTransformFixed s tgt t1 src t2 fix_ = Throw cl e).
Proof.
  intros s tgt t1 src t2 fix_ cl e R. unfold lookupTransformFixed. split; [|split].
  - intros C. rewrite (validate_complaint s _ _ _ _ R C). reflexivity.
  - intros P K C. destruct (validate_usable s "lookupTransform argument target_frame" tgt R P K) as [i ->]. cbn [bind].
    rewrite (validate_complaint s _ _ _ _ R C). reflexivity.
  - intros P K P' K' C. destruct (validate_usable s "lookupTransform argument target_frame" tgt R P K) as [i ->]. cbn [bind].
    destruct (validate_usable s "lookupTransform argument source_frame" src R P' K') as [i' ->]. cbn [bind].
    rewrite (validate_complaint s _ _ _ _ R C). reflexivity.
Qed.

Lemma lfn_eqb : forall s n, wf s -> (known s n /\ Nat.eqb (lookupFrameNumber s n) 0 = false) \/ (~ known s n /\ Nat.eqb (lookupFrameNumber s n) 0 = true).
Proof.
  intros s n W. destruct (known_dec s n) as [K|K]; [left|right]; (split; [assumption|]).
  - destruct (lookupFrameNumber_known s _ W K) as (i & -> & Hz & _). apply Nat.eqb_neq. assumption.
  - rewrite (lookupFrameNumber_unknown s _ W K). reflexivity.
Qed.

Theorem can_absent : forall s tgt src t old l, reachable s -> plain tgt -> plain src -> tgt <> src ->
  absent s [("canTransform: target_frame", tgt); ("canTransform: source_frame", src)] l -> l <> [] ->
  canTransform s tgt src t (Some old) = Ok (false, Some (told old l)) /\ canTransform s tgt src t None = Ok (false, None).
Proof.
  intros s tgt src t old l R P1 P2 Ne A Hl. apply reachable_wf in R as W. unfold canTransform, missing_err.
  rewrite (proj2 (String.eqb_neq _ _) Ne), (proj2 (plain_warn _) P1), (proj2 (plain_warn _) P2).
  destruct (lfn_eqb s tgt W) as [[K1 E1]|[K1 E1]]; destruct (lfn_eqb s src W) as [[K2 E2]|[K2 E2]]; rewrite !E1, !E2; cbn [orb append_err];
    inversion A as [|r n l0 l1 Kn A1|r n l0 l1 Kn A1]; subst; try contradiction;
    inversion A1 as [|r n l0 l2 Kn' A2|r n l0 l2 Kn' A2]; subst; try contradiction;
    inversion A2; subst; try (exfalso; apply Hl; reflexivity); split; reflexivity.
Qed.
Theorem can_fixed_absent : forall s tgt t1 src t2 fix_ old l, reachable s -> plain tgt -> plain src -> plain fix_ ->
  absent s [("canTransform: target_frame", tgt); ("canTransform: source_frame", src); ("fixed_frame", fix_)] l -> l <> [] ->
  canTransformFixed s tgt t1 src t2 fix_ (Some old) = Ok (false, Some (told old l)) /\
  canTransformFixed s tgt t1 src t2 fix_ None = Ok (false, None).
Proof.
  intros s tgt t1 src t2 fix_ old l R P1 P2 P3 A Hl. apply reachable_wf in R as W. unfold canTransformFixed, missing_err.
  rewrite (proj2 (plain_warn _) P1), (proj2 (plain_warn _) P2), (proj2 (plain_warn _) P3).
  destruct (lfn_eqb s tgt W) as [[K1 E1]|[K1 E1]]; destruct (lfn_eqb s src W) as [[K2 E2]|[K2 E2]];
    destruct (lfn_eqb s fix_ W) as [[K3 E3]|[K3 E3]]; rewrite !E1, !E2, !E3; cbn [orb append_err];
    inversion A as [|r n l0 l1 Kn A1|r n l0 l1 Kn A1]; subst; try contradiction;
    inversion A1 as [|r n l0 l2 Kn' A2|r n l0 l2 Kn' A2]; subst; try contradiction;
    inversion A2 as [|r n l0 l3 Kn'' A3|r n l0 l3 Kn'' A3]; subst; try contradiction;
    inversion A3; subst; try (exfalso; apply Hl; reflexivity); split; reflexivity.
Qed.

(** Names that are not usable are refused without a word. *)
Theorem can_not_plain : forall s tgt src t err, tgt <> src -> ~ plain tgt \/ ~ plain src ->
  canTransform s tgt src t err = Ok (false, err).
Proof.
  intros s tgt src t err Ne H. unfold canTransform. rewrite (proj2 (String.eqb_neq _ _) Ne).
  destruct (warnFrameId tgt) eqn:E1; [reflexivity|]. destruct (warnFrameId src) eqn:E2; [reflexivity|].
  apply plain_warn in E1. apply plain_warn in E2. tauto.
Qed.
Theorem can_fixed_not_plain : forall s tgt t1 src t2 fix_ err, ~ plain tgt \/ ~ plain src \/ ~ plain fix_ ->
  canTransformFixed s tgt t1 src t2 fix_ err = Ok (false, err).
Proof.
  intros s tgt t1 src t2 fix_ err H. unfold canTransformFixed.
  destruct (warnFrameId tgt) eqn:E1; [reflexivity|]. destruct (warnFrameId src) eqn:E2; [reflexivity|]. destruct (warnFrameId fix_) eqn:E3; [reflexivity|].
  apply plain_warn in E1. apply plain_warn in E2. apply plain_warn in E3. tauto.
Qed.

(** Through a fixed frame: the text of the first leg that fails, target leg first. *)
Lemma can_nolock : forall s a b t err, wf s -> plain a -> plain b -> known s a -> known s b ->
  canTransformNoLock s (lookupFrameNumber s a) (lookupFrameNumber s b) t err = canTransform s a b t err.
Proof.
  intros s a b t err W P1 P2 K1 K2. unfold canTransform. destruct (String.eqb_spec a b) as [->|Ne].
  - unfold canTransformNoLock. destruct (lookupFrameNumber_known s _ W K2) as (i & -> & Hz & _).
    rewrite (proj2 (Nat.eqb_neq _ _) Hz), Nat.eqb_refl. reflexivity.
  - rewrite (proj2 (plain_warn _) P1), (proj2 (plain_warn _) P2).
    destruct (lookupFrameNumber_known s _ W K1) as (i & -> & Hz & _). destruct (lookupFrameNumber_known s _ W K2) as (j & -> & Hz' & _).
    rewrite (proj2 (Nat.eqb_neq _ _) Hz), (proj2 (Nat.eqb_neq _ _) Hz'). reflexivity.
Qed.
Theorem can_fixed_legs : forall s tgt t1 src t2 fix_ err, reachable s -> plain tgt -> plain src -> plain fix_ ->
  known s tgt -> known s src -> known s fix_ ->
  canTransformFixed s tgt t1 src t2 fix_ err =
  match canTransform s tgt fix_ t1 err with
  | Ok (true, _) => canTransform s fix_ src t2 err
  | r => r
  end.
Proof.
  intros s tgt t1 src t2 fix_ err R P1 P2 P3 K1 K2 K3. apply reachable_wf in R as W. unfold canTransformFixed.
  rewrite (proj2 (plain_warn _) P1), (proj2 (plain_warn _) P2), (proj2 (plain_warn _) P3).
  destruct (lfn_eqb s tgt W) as [[_ E1]|[? _]]; [|contradiction]. destruct (lfn_eqb s src W) as [[_ E2]|[? _]]; [|contradiction].
  destruct (lfn_eqb s fix_ W) as [[_ E3]|[? _]]; [|contradiction]. rewrite E1, E2, E3. cbn [orb].
  rewrite can_nolock by assumption.
  destruct (canTransform s tgt fix_ t1 err) as [[[|] e]| |] eqn:E; cbn [bind]; try reflexivity.
  apply can_true_silent in E; [|assumption]. subst e. apply can_nolock; assumption.
Qed.
End P.
