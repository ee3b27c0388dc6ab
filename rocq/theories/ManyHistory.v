(** * Several message filters on one buffer: histories *)
From Coq Require Import ZArith Bool List String Lia Permutation.
From Verif Require Import RosTime Scalar LinearMath Cache BufferCore SpecCore CoreInv CoreSet Requests SpecRequests RequestProofs RequestHistory
  MessageFilter SpecFilter FilterProofs FilterCalm ManyFilters SpecManyFilters ManyProofs.
Import ListNotations.
Open Scope Z_scope.

Section P.
Context {S : Scalar}.
Notation filt := (filt S).
Notation buf := (buf S).
Notation world := (world S).
Implicit Types (f g : filt) (b : buf) (w : world).

Lemma clear_facts : forall T f, quiet T f -> let f' := mf_clear f in let rest := filter (fun k => negb (k =? f_cb f)) (b_cbs (f_buf f)) in
  b_cbs (f_buf f') = f_cb f' :: rest /\ ~ In (f_cb f') rest /\
  (forall p, In p (pending (f_buf f')) -> In p (pending (f_buf f)) /\ p_cb p <> f_cb f) /\ f_msgs f' = [].
Proof.
  intros T f Q. cbn zeta. set (b1 := removeTransformableCallback (f_buf f) (f_cb f)).
  assert (Sf : step_ok (f_buf f) (RRemoveCallback (f_cb f)) b1 AVoid []).
  { apply step_fact; [apply (q_inv T f Q)|apply (q_cb_range T f Q)|pose proof (q_ctr T f Q); unfold uint64, p2_32 in *; lia|reflexivity]. }
  destruct (add_cb_facts b1 (so_inv _ _ _ _ _ Sf)) as (b' & h & E & I' & C1 & C2 & C3 & C4 & C5).
  - apply (q_ctr T f Q).
  - pose proof (q_len T f Q). pose proof (filter_len (fun k => negb (k =? f_cb f)) (b_cbs (f_buf f))). cbn [b1 removeTransformableCallback b_cbs]. lia.
  - apply (q_cbc T f Q).
  - unfold mf_clear. fold b1. rewrite E. cbn [f_buf f_cb f_msgs]. split; [exact C1|]. split; [|split; [|reflexivity]].
    + unfold addTransformableCallback in E. destruct (next_cb_handle _ _ _) as [h'|] eqn:En; [|discriminate E]. inversion E; subst. destruct (next_cb_fresh _ _ _ _ En) as (X & _). exact X.
    + intros p Hp. unfold pending in *. rewrite C2, C3 in Hp. cbn [b1 removeTransformableCallback b_core b_reqs] in Hp. apply in_map_iff in Hp as (r & <- & Hr). apply filter_In in Hr as (Hr & Nr).
      split; [apply in_map; exact Hr|]. apply negb_true_iff, Z.eqb_neq in Nr. exact Nr.
Qed.
Lemma add_requests_cbs : forall targets b cb src st tol acc, b_cbs (fst (add_requests b cb src st tol targets acc)) = b_cbs b.
Proof.
  assert (A : forall b cb tgt src t, b_cbs (fst (addTransformableRequest b cb tgt src t)) = b_cbs b) by (intros; unfold addTransformableRequest; destruct (add_check _ _ _ _) as [[h|x y]| |]; reflexivity).
  induction targets as [|tgt rest IH]; intros b cb src st tol acc; [reflexivity|]. cbn [add_requests]. pose proof (A b cb tgt src st) as A1. destruct (addTransformableRequest b cb tgt src st) as [b1 [h|c e|]]; cbn [fst] in A1; [|exact A1|exact A1].
  destruct (note_answer h acc) as [a1|]; [|exact A1]. destruct (tol =? 0); [rewrite IH; exact A1|]. destruct (time_add st tol) as [t2|]; [|exact A1].
  pose proof (A b1 cb tgt src t2) as A2. destruct (addTransformableRequest b1 cb tgt src t2) as [b2 [h2|c e|]]; cbn [fst] in A2; [|cbn [fst]; congruence|cbn [fst]; congruence]. destruct (note_answer h2 a1) as [a2|]; [rewrite IH|cbn [fst]]; congruence.
Qed.
Lemma cancel_cbs : forall hs b, b_cbs (fold_left cancelTransformableRequest hs b) = b_cbs b.
Proof. induction hs as [|h hs IH]; intros b; [reflexivity|]. cbn [fold_left]. rewrite IH. reflexivity. Qed.
Lemma own_keeps : forall f o, own_call o = true -> o <> MClear -> f_cb (mf_step f o) = f_cb f /\ b_cbs (f_buf (mf_step f o)) = b_cbs (f_buf f).
Proof.
  intros f o Ow N. destruct o as [fr st|l|d|n| | |m a st read|o]; cbn [own_call] in Ow; try discriminate Ow; try congruence; cbn [mf_step]; try (split; reflexivity).
  - unfold mf_add, add_begin. change (f_targets (note_added f fr st)) with (f_targets f). destruct (f_targets f) as [|t0 ts]; [split; reflexivity|].
    destruct (String.eqb _ _); [split; reflexivity|].
    match goal with |- context [add_requests ?b ?c ?s ?x ?t ?l ?a] => pose proof (add_requests_cbs l b c s x t a) as X; destruct (add_requests b c s x t l a) as [b1 [[[n hs]|]|c1 e|]] end; cbn [fst] in *; try (split; [reflexivity|exact X]).
    unfold add_finish. destruct (Nat.eqb _ _); [split; [reflexivity|exact X]|]. destruct (_ && _); [|split; [reflexivity|exact X]].
    destruct (f_msgs _) as [|front rest]; [split; [reflexivity|exact X]|]. split; [reflexivity|]. cbn [with_msgs f_buf emit with_buf]. rewrite cancel_cbs. exact X.
  - unfold mf_spin. destruct (f_outbox f); split; reflexivity.
Qed.

(** ** One step *)
Definition roomy b : Prop := b_rq_counter b < 2 ^ 32 /\ Z.of_nat (List.length (b_cbs b)) < 2 ^ 32 - 1.
Lemma roomy_small : forall b, roomy b -> small b.
Proof. intros b (A & B). split; lia. Qed.
(** every filter of [w] that is still there has gone through a history of its own *)
Definition projects w (o : w_op S) w' : Prop :=
  forall k f f', seen w k = Some f -> seen w' k = Some f' -> exists ops, alone k o ops /\ mf_run f ops = f'.
Lemma seen_app : forall w b' x k f, seen (mkWorld b' (w_filters w ++ [x]) (w_dead w)) k = Some f ->
  (exists g, seen w k = Some g /\ f = with_buf g b') \/ (k = List.length (w_filters w) /\ exists g, x = Some g /\ f = with_buf g b').
Proof.
  intros w b' x k f H. unfold seen in *. cbn [w_filters w_buf] in H. destruct (Nat.lt_ge_cases k (List.length (w_filters w))) as [L|L].
  - rewrite nth_error_app1 in H by exact L. destruct (nth_error (w_filters w) k) as [[g|]|]; inversion H; subst. left. exists (with_buf g (w_buf w)). auto.
  - rewrite nth_error_app2 in H by exact L. destruct (k - List.length (w_filters w))%nat as [|n] eqn:E; [|destruct n; discriminate H]. cbn [nth_error] in H.
    destruct x as [g|]; inversion H; subst. right. split; [lia|]. exists g. auto.
Qed.
Lemma seen_same : forall w b' d k f, seen (mkWorld b' (w_filters w) d) k = Some f -> exists g, seen w k = Some g /\ f = with_buf g b'.
Proof. intros w b' d k f H. unfold seen in *. cbn [w_filters w_buf] in *. destruct (nth_error (w_filters w) k) as [[g|]|]; inversion H; subst. exists (with_buf g (w_buf w)). auto. Qed.

Lemma step_new : forall T w target q cbq, winv T w -> roomy (w_buf (w_new w target q cbq)) ->
  winv T (w_new w target q cbq) /\ projects w (WNew target q cbq) (w_new w target q cbq).
Proof.
  intros T w target q cbq I Rm. destruct (reach_binv _ (wi_reach T w I)) as (Bi & _).
  destruct (add_cb_facts (w_buf w) Bi) as (b' & h & Ea & I' & C1 & C2 & C3 & C4 & C5); [apply (wi_ctr T w I)|pose proof (wi_len T w I); unfold p2_32; lia|apply cb_counter_reach, (wi_reach T w I)|].
  assert (Fr : ~ In h (b_cbs (w_buf w))).
  { unfold addTransformableCallback in Ea. destruct (next_cb_handle _ _ _) as [h'|] eqn:En; [|discriminate Ea]. inversion Ea; subst. destruct (next_cb_fresh _ _ _ _ En) as (X & _). exact X. }
  assert (En : exists f0, new_filter (w_buf w) target q cbq = Some f0 /\ f_buf f0 = b' /\ f_cb f0 = h) by (unfold new_filter; rewrite Ea; eexists; split; [reflexivity|]; auto).
  destruct En as (f0 & En & Eb & Ec). unfold w_new in *. rewrite En in *. rewrite Eb in *. cbn [w_buf] in Rm.
  assert (Nx : next (w_buf w) RAddCallback = b') by (unfold next; cbn [req_step]; rewrite Ea; reflexivity).
  assert (Mv : moves (-1) (w_buf w) b') by (eapply moves_cons with (o := RAddCallback); [exact Logic.I|split; exact Logic.I|rewrite Nx; apply roomy_small; exact Rm|rewrite Nx; apply moves_nil]).
  assert (Pe : pending b' = pending (w_buf w)) by (unfold pending; rewrite C2, C3; reflexivity).
  destruct (moves_fact _ _ _ Mv (wi_reach T w I) (wi_times T w I)) as (R' & Ti' & _).
  assert (Ot : forall k f, seen w k = Some f -> calm T (with_buf f b') /\ exists ops, Forall is_other ops /\ mf_run f ops = with_buf f b').
  { intros k f Hf. apply (others_see T w (-1) b' I Mv k f Hf). pose proof (q_cb_range T f (wi_quiet T w k f I Hf)). lia. }
  assert (Cn : calm T f0) by (eapply calm_new; [apply (wi_T T w I)|apply (wi_reach T w I)|apply (wi_times T w I)|apply (wi_ctr T w I)|apply (wi_len T w I)|exact En]).
  assert (Hx : with_buf f0 b' = f0) by (rewrite <- Eb; apply with_buf_id).
  split.
  - constructor; cbn [w_buf w_dead].
    + apply (wi_T T w I).
    + exact R'.
    + exact Ti'.
    + apply Rm.
    + apply Rm.
    + intros k f Hf. apply seen_app in Hf as [(g & Hg & ->)|(_ & g & Eg & ->)]; [apply (Ot k g Hg)|]. inversion Eg; subst g. rewrite Hx. exact Cn.
    + intros j k f g Hjk Hf Hg. apply seen_app in Hf as [(f1 & Hf & ->)|(-> & f1 & Ef & ->)]; apply seen_app in Hg as [(g1 & Hg & ->)|(-> & g1 & Eg & ->)]; cbn [with_buf f_cb].
      * apply (wi_apart T w I j k); assumption.
      * inversion Eg; subst g1. rewrite Ec. intros X. apply Fr. rewrite <- X. eapply wi_cb; eassumption.
      * inversion Ef; subst f1. rewrite Ec. intros X. apply Fr. rewrite X. eapply wi_cb; eassumption.
      * congruence.
    + intros p Hp. rewrite C1. right. rewrite Pe in Hp. apply (wi_named T w I p Hp).
    + intros d Hd. destruct (wi_dead T w I d Hd) as (D1 & D2 & D3). split; [rewrite C1; right; exact D1|]. split; [rewrite Pe; exact D2|].
      intros k f Hf. apply seen_app in Hf as [(g & Hg & ->)|(_ & g & Eg & ->)]; cbn [with_buf f_cb]; [apply (D3 k g Hg)|]. inversion Eg; subst g. rewrite Ec. intros X. apply Fr. rewrite X. exact D1.
    + apply (wi_once T w I).
  - intros k f f' Hf Hf'. apply seen_app in Hf' as [(g & Hg & ->)|(-> & _)]; [|apply seen_lt in Hf; lia]. rewrite Hf in Hg. inversion Hg; subst g.
    destruct (Ot k f Hf) as (_ & ops & F & E). exists ops. split; [exact F|exact E].
Qed.

Lemma step_destroy : forall T w k, winv T w -> roomy (w_buf (w_destroy w k)) ->
  winv T (w_destroy w k) /\ projects w (WDestroy k) (w_destroy w k).
Proof.
  intros T w k I Rm. unfold w_destroy in *. destruct (seen w k) as [f0|] eqn:Sf; [|split; [exact I|]; intros j f f' Hf Hf'; rewrite Hf in Hf'; inversion Hf'; subst; exists []; split; [constructor|reflexivity]].
  pose proof (wi_quiet T w k f0 I Sf) as Q. destruct (clear_facts T f0 Q) as (K1 & K2 & K3 & _). rewrite (seen_buf _ _ _ Sf) in K1, K2, K3. cbn [w_buf] in Rm.
  set (f1 := mf_clear f0) in *. set (b' := f_buf f1) in *. set (rest := filter (fun k => negb (k =? f_cb f0)) (b_cbs (w_buf w))) in *.
  assert (Mv : moves (f_cb f0) (w_buf w) b') by (rewrite <- (seen_buf _ _ _ Sf); apply (moves_clear T f0 Q), roomy_small; exact Rm).
  destruct (moves_fact _ _ _ Mv (wi_reach T w I) (wi_times T w I)) as (R' & Ti' & _).
  assert (Inr : forall h, In h (b_cbs (w_buf w)) -> h <> f_cb f0 -> In h rest) by (intros h Hh Nh; apply filter_In; split; [exact Hh|apply negb_true_iff, Z.eqb_neq; exact Nh]).
  assert (Se : forall j f, seen (mkWorld b' (set_nth (w_filters w) k None) (f_cb f1 :: w_dead w)) j = Some f -> j <> k /\ exists g, seen w j = Some g /\ f = with_buf g b').
  { intros j f Hf. unfold seen in Hf |- *. cbn [w_filters w_buf] in Hf. destruct (Nat.eq_dec j k) as [->|Nj].
    - rewrite set_nth_same in Hf by (eapply seen_lt; eassumption). discriminate Hf.
    - rewrite set_nth_other in Hf by exact Nj. split; [exact Nj|]. destruct (nth_error (w_filters w) j) as [[g|]|]; inversion Hf; subst. exists (with_buf g (w_buf w)). auto. }
  assert (Ot : forall j f, j <> k -> seen w j = Some f -> f_cb f <> f_cb f0 /\ calm T (with_buf f b') /\ exists ops, Forall is_other ops /\ mf_run f ops = with_buf f b').
  { intros j f Nj Hf. assert (Nc : f_cb f <> f_cb f0) by (apply (wi_apart T w I j k f f0); assumption). split; [exact Nc|]. apply (others_see T w (f_cb f0) b' I Mv j f Hf Nc). }
  split.
  - constructor; cbn [w_buf w_dead].
    + apply (wi_T T w I).
    + exact R'.
    + exact Ti'.
    + apply Rm.
    + apply Rm.
    + intros j f Hf. apply Se in Hf as (Nj & g & Hg & ->). apply (Ot j g Nj Hg).
    + intros i j f g Hij Hf Hg. apply Se in Hf as (_ & f2 & Hf & ->). apply Se in Hg as (_ & g2 & Hg & ->). cbn [with_buf f_cb]. apply (wi_apart T w I i j); assumption.
    + intros p Hp. destruct (K3 p Hp) as (P1 & P2). rewrite K1. right. apply Inr; [apply (wi_named T w I p P1)|exact P2].
    + intros d [<-|Hd].
      * split; [rewrite K1; left; reflexivity|]. split.
        -- intros p Hp X. destruct (K3 p Hp) as (P1 & P2). apply K2. rewrite <- X. apply Inr; [apply (wi_named T w I p P1)|exact P2].
        -- intros j f Hf X. apply Se in Hf as (Nj & g & Hg & ->). cbn [with_buf f_cb] in X. apply K2. rewrite <- X. apply Inr; [eapply wi_cb; eassumption|apply (Ot j g Nj Hg)].
      * destruct (wi_dead T w I d Hd) as (D1 & D2 & D3). split; [rewrite K1; right; apply Inr; [exact D1|intros X; apply (D3 k f0 Sf); auto]|]. split.
        -- intros p Hp. apply D2. apply (K3 p Hp).
        -- intros j f Hf. apply Se in Hf as (Nj & g & Hg & ->). cbn [with_buf f_cb]. apply (D3 j g Hg).
    + constructor; [|apply (wi_once T w I)]. intros Hd. destruct (wi_dead T w I _ Hd) as (D1 & D2 & D3). apply K2. apply Inr; [exact D1|]. intros X. apply (D3 k f0 Sf). auto.
  - intros j f f' Hf Hf'. apply Se in Hf' as (Nj & g & Hg & ->). rewrite Hf in Hg. inversion Hg; subst g. destruct (Ot j f Nj Hf) as (_ & _ & ops & F & E). exists ops. auto.
Qed.

Lemma step_own : forall T w k o f0, winv T w -> seen w k = Some f0 -> own_call o = true -> calm_op T f0 o -> roomy (f_buf (mf_step f0 o)) ->
  winv T (put w k (mf_step f0 o)) /\ projects w (WDo k o) (put w k (mf_step f0 o)).
Proof.
  intros T w k o f0 I Sf Ow Co Rm. pose proof (wi_quiet T w k f0 I Sf) as Q. pose proof (seen_buf _ _ _ Sf) as Eb.
  set (f1 := mf_step f0 o) in *. set (b' := f_buf f1) in *.
  assert (Mv : moves (f_cb f0) (w_buf w) b') by (rewrite <- Eb; apply (moves_own T f0 o Q Ow Co), roomy_small; exact Rm).
  destruct (moves_fact _ _ _ Mv (wi_reach T w I) (wi_times T w I)) as (R' & Ti' & New).
  assert (C1 : calm T f1) by (apply calm_step; [eapply wi_calm; eassumption|exact Co|apply Rm|destruct Rm; fold f1; fold b'; lia]).
  assert (Se : forall j f, seen (put w k f1) j = Some f -> (j = k /\ f = f1) \/ (j <> k /\ exists g, seen w j = Some g /\ f = with_buf g b')).
  { intros j f Hf. destruct (Nat.eq_dec j k) as [->|Nj]; [left; rewrite (seen_put w k f0 f1 Sf) in Hf; inversion Hf; auto|].
    right. split; [exact Nj|]. rewrite seen_put_other in Hf by exact Nj. destruct (seen w j) as [g|]; inversion Hf; subst. exists g. auto. }
  assert (Ot : forall j f, j <> k -> seen w j = Some f -> f_cb f <> f_cb f0 /\ calm T (with_buf f b') /\ exists ops, Forall is_other ops /\ mf_run f ops = with_buf f b').
  { intros j f Nj Hf. assert (Nc : f_cb f <> f_cb f0) by (apply (wi_apart T w I j k f f0); assumption). split; [exact Nc|]. apply (others_see T w (f_cb f0) b' I Mv j f Hf Nc). }
  (* handles: kept, or one exchanged for a fresh one *)
  assert (Cb : (forall h, In h (b_cbs (w_buf w)) -> h <> f_cb f0 -> In h (b_cbs b') /\ h <> f_cb f1) /\
    (forall p, In p (pending b') -> In (p_cb p) (b_cbs b')) /\ (forall p d, In p (pending b') -> In d (w_dead w) -> p_cb p <> d)).
  { assert (Pd : forall p d, In p (pending b') -> In d (w_dead w) -> p_cb p <> d).
    { intros p d Hp Hd. destruct (wi_dead T w I d Hd) as (D1 & D2 & D3). destruct (New p Hp) as [X|X]; [apply D2; exact X|]. rewrite X. apply (D3 k f0 Sf). }
    assert (Dec : o = MClear \/ o <> MClear) by (destruct o; try (right; discriminate); left; reflexivity).
    destruct Dec as [->|No].
    - cbn [mf_step] in f1. destruct (clear_facts T f0 Q) as (K1 & K2 & K3 & _). rewrite Eb in K1, K2, K3. change (mf_clear f0) with f1 in K1, K2, K3. fold b' in K1, K3.
      assert (Inr : forall h, In h (b_cbs (w_buf w)) -> h <> f_cb f0 -> In h (filter (fun k => negb (k =? f_cb f0)) (b_cbs (w_buf w)))) by (intros h Hh Nh; apply filter_In; split; [exact Hh|apply negb_true_iff, Z.eqb_neq; exact Nh]).
      split; [|split; [|exact Pd]].
      + intros h Hh Nh. split; [rewrite K1; right; apply Inr; assumption|]. intros X. apply K2. rewrite <- X. apply Inr; assumption.
      + intros p Hp. destruct (K3 p Hp) as (P1 & P2). rewrite K1. right. apply Inr; [apply (wi_named T w I p P1)|exact P2].
    - destruct (own_keeps f0 o Ow No) as (K1 & K2). fold f1 in K1, K2. fold b' in K2. rewrite Eb in K2. rewrite K1, K2. split; [auto|]. split; [|exact Pd].
      intros p Hp. destruct (New p Hp) as [X|X]; [apply (wi_named T w I p X)|]. rewrite X. eapply wi_cb; eassumption. }
  destruct Cb as (Cb & Cn & Cd).
  split.
  - constructor; cbn [put w_buf w_dead].
    + apply (wi_T T w I).
    + exact R'.
    + exact Ti'.
    + apply Rm.
    + apply Rm.
    + intros j f Hf. apply Se in Hf as [(-> & ->)|(Nj & g & Hg & ->)]; [exact C1|apply (Ot j g Nj Hg)].
    + intros i j f g Hij Hf Hg. apply Se in Hf as [(-> & ->)|(Ni & f2 & Hf & ->)]; apply Se in Hg as [(-> & ->)|(Nj & g2 & Hg & ->)]; cbn [with_buf f_cb].
      * congruence.
      * intros X. destruct (Cb (f_cb g2)) as (_ & Y); [eapply wi_cb; eassumption|apply (Ot j g2 Nj Hg)|congruence].
      * intros X. destruct (Cb (f_cb f2)) as (_ & Y); [eapply wi_cb; eassumption|apply (Ot i f2 Ni Hf)|congruence].
      * apply (wi_apart T w I i j); assumption.
    + exact Cn.
    + intros d Hd. destruct (wi_dead T w I d Hd) as (D1 & D2 & D3). destruct (Cb d D1) as (Y1 & Y2); [intros X; apply (D3 k f0 Sf); auto|].
      split; [exact Y1|]. split; [intros p Hp; apply (Cd p d Hp Hd)|]. intros j f Hf. apply Se in Hf as [(-> & ->)|(Nj & g & Hg & ->)]; [congruence|apply (D3 j g Hg)].
    + apply (wi_once T w I).
  - intros j f f' Hf Hf'. apply Se in Hf' as [(-> & ->)|(Nj & g & Hg & ->)].
    + rewrite Sf in Hf. inversion Hf; subst f. exists [o]. split; [cbn [alone]; rewrite Nat.eqb_refl, Ow; reflexivity|reflexivity].
    + rewrite Hf in Hg. inversion Hg; subst g. destruct (Ot j f Nj Hf) as (_ & _ & ops & F & E). exists ops. split; [|exact E]. cbn [alone].
      rewrite (proj2 (Nat.eqb_neq k j)) by congruence. exact F.
Qed.

Lemma same_projects : forall w o, (forall k, exists ops, alone k o ops /\ forall f, seen w k = Some f -> mf_run f ops = f) -> projects w o w.
Proof. intros w o H k f f' Hf Hf'. rewrite Hf in Hf'. inversion Hf'; subst. destruct (H k) as (ops & A & E). exists ops. split; [exact A|apply E; exact Hf]. Qed.

Lemma step_other : forall T w o, winv T w -> keeps_out w o = true -> req_cond (w_buf w) o -> roomy (next (w_buf w) o) ->
  winv T (mkWorld (next (w_buf w) o) (w_filters w) (w_dead w)) /\ projects w (WOther o) (mkWorld (next (w_buf w) o) (w_filters w) (w_dead w)).
Proof.
  intros T w o I Ko Rc Rm. set (b' := next (w_buf w) o) in *. pose proof (wi_reach T w I) as R.
  assert (Po : forall k f, seen w k = Some f -> polite f o = true).
  { intros k f Hf. destruct o as [m au st| | |c|c tgt src t|h]; cbn [keeps_out polite] in *; try discriminate Ko; try reflexivity.
    - apply andb_prop in Ko as (Ko & K2). destruct (owner _ _) eqn:Eo; [discriminate K2|]. apply negb_true_iff, Z.eqb_neq. intros X. apply (owner_none_seen w c k f Eo Hf). auto.
    - apply andb_prop in Ko as (Ko & K2). destruct (owner _ _) eqn:Eo; [discriminate K2|]. apply negb_true_iff, Z.eqb_neq. intros X. apply (owner_none_seen w c k f Eo Hf). auto.
    - apply negb_true_iff in Ko. apply negb_true_iff. rewrite (seen_buf _ _ _ Hf). destruct (existsb _ (b_reqs (w_buf w))) eqn:E in |- *; [|reflexivity].
      apply existsb_exists in E as (r & Hr & E). apply andb_prop in E as (E1 & E2). apply Z.eqb_eq in E1. rewrite <- Ko. symmetry. apply existsb_exists. exists r. split; [exact Hr|].
      destruct (owner (w_filters w) (rq_cb r)) eqn:Eo; [exact E2|]. exfalso. apply (owner_none_seen w _ k f Eo Hf). auto. }
  assert (Ot : forall k f, seen w k = Some f -> calm T (with_buf f b') /\ with_buf f b' = mf_step f (MOther o)).
  { intros k f Hf. assert (E : with_buf f (w_buf w) = f) by (rewrite <- (seen_buf _ _ _ Hf); apply with_buf_id).
    destruct (see_other T f (w_buf w) o) as (C & E2); [rewrite E; eapply wi_calm; eassumption|rewrite E; apply (Po k f Hf)|exact Rc|apply roomy_small; exact Rm|]. rewrite E in E2. auto. }
  assert (Pn : forall p, In p (pending b') -> In p (pending (w_buf w)) \/ o = RAddRequest (p_cb p) (p_target p) (p_source p) (p_time p)) by (apply (next_fact _ _ R (proj1 Rc))).
  assert (Cb : forall h, In h (b_cbs (w_buf w)) -> o <> RRemoveCallback h -> In h (b_cbs b')).
  { intros h Hh Nh. unfold b', next. destruct o as [m au st| | |c|c tgt src t|x]; cbn [keeps_out req_step fst] in *; try discriminate Ko; try exact Hh.
    - unfold addTransformableCallback. destruct (next_cb_handle _ _ _); [right; exact Hh|exact Hh].
    - apply filter_In. split; [exact Hh|]. apply negb_true_iff, Z.eqb_neq. congruence.
    - unfold addTransformableRequest. destruct (add_check _ _ _ _) as [[h'|x y]| |]; exact Hh. }
  split.
  - constructor; cbn [w_buf w_dead].
    + apply (wi_T T w I).
    + apply next_reach; [exact R|apply Rc|apply roomy_small; exact Rm].
    + apply next_times; [exact R|exact Rc|apply (wi_times T w I)].
    + apply Rm.
    + apply Rm.
    + intros k f Hf. apply seen_same in Hf as (g & Hg & ->). apply (Ot k g Hg).
    + intros j k f g Hjk Hf Hg. apply seen_same in Hf as (f2 & Hf & ->). apply seen_same in Hg as (g2 & Hg & ->). apply (wi_apart T w I j k f2 g2); assumption.
    + intros p Hp. destruct (Pn p Hp) as [X|X].
      * apply Cb; [apply (wi_named T w I p X)|]. intros E. subst o. unfold b', next in Hp. cbn [req_step fst] in Hp. unfold pending in Hp. cbn [removeTransformableCallback b_core b_reqs] in Hp.
        apply in_map_iff in Hp as (r & <- & Hr). apply filter_In in Hr as (_ & Nr). cbn [view p_cb] in Nr. rewrite Z.eqb_refl in Nr. discriminate Nr.
      * apply Cb; [|rewrite X; discriminate]. subst o. cbn [keeps_out] in Ko. apply andb_prop in Ko as (Ko & _). apply andb_prop in Ko as (Ko & _). apply registered_In. exact Ko.
    + intros d Hd. destruct (wi_dead T w I d Hd) as (D1 & D2 & D3).
      assert (Ds : forall c, o = RRemoveCallback c \/ (exists x y z, o = RAddRequest c x y z) -> c <> d).
      { intros c Hc E. subst c. assert (K : registered (b_cbs (w_buf w)) d && negb (existsb (Z.eqb d) (w_dead w)) && match owner (w_filters w) d with Some _ => false | None => true end = true)
          by (destruct Hc as [->|(x & y & z & ->)]; exact Ko).
        apply andb_prop in K as (K & _). apply andb_prop in K as (_ & K). apply negb_true_iff in K. rewrite (proj2 (existsb_In d (w_dead w)) Hd) in K. discriminate K. }
      split; [apply Cb; [exact D1|]; intros E; apply (Ds d); [left; exact E|reflexivity]|]. split.
      * intros p Hp. destruct (Pn p Hp) as [X|X]; [apply D2; exact X|]. apply Ds. right. eauto.
      * intros k f Hf. apply seen_same in Hf as (g & Hg & ->). apply (D3 k g Hg).
    + apply (wi_once T w I).
  - intros k f f' Hf Hf'. apply seen_same in Hf' as (g & Hg & ->). rewrite Hf in Hg. inversion Hg; subst g. exists [MOther o]. split; [constructor; [exists o; reflexivity|constructor]|].
    cbn [mf_run]. symmetry. apply (Ot k f Hf).
Qed.

Lemma step_transform : forall T w m a st read, winv T w -> valid_time (tm_stamp m) -> roomy (w_buf (fst (w_set_transform w m a st read))) ->
  let w' := fst (w_set_transform w m a st read) in
  winv T w' /\ projects w (WTransform m a st read) w' /\
  snd (w_set_transform w m a st read) = snd (setTransform (b_core (w_buf w)) m a st) /\ w_dead w' = w_dead w /\
  w_buf w' = next (w_buf w) (RSet m a st) /\
  forall k, seen w' k = option_map (fun f => mf_step f (MTransform m a st read)) (seen w k).
Proof.
  intros T w m a st read I Hv Rm. cbn zeta. pose proof (wi_reach T w I) as R. destruct (reach_binv _ R) as (Bi & Bc).
  unfold w_set_transform in *. destruct (set_transform (w_buf w) m a st) as [b r] eqn:Es.
  assert (Nx : next (w_buf w) (RSet m a st) = b) by (unfold next; cbn [req_step]; rewrite Es; reflexivity).
  assert (Fa : step_ok (w_buf w) (RSet m a st) b (ABool (' (v, _) <- r ;; Ok v)) (match r with Ok (_, evs) => evs | _ => [] end)).
  { apply step_fact; [exact Bi|exact Hv|lia|]. cbn [req_step]. rewrite Es. reflexivity. }
  assert (Pn : forall p, In p (pending b) -> In p (pending (w_buf w))) by (intros p Hp; destruct (so_new _ _ _ _ _ Fa p Hp) as [X|(X & _)]; [exact X|discriminate X]).
  assert (Cbs : b_cbs b = b_cbs (w_buf w)).
  { rewrite <- Nx. unfold next. cbn [req_step fst]. unfold set_transform. destruct (setTransform (b_core (w_buf w)) m a st) as [s' [[|]|cl e|]]; try reflexivity.
    unfold testTransformableRequests. destruct (test_loop _ _ _ _ _ _) as [l r0]. reflexivity. }
  (* what setTransform alone answers *)
  assert (Sv : snd (setTransform (b_core (w_buf w)) m a st) = (' (v, _) <- r ;; Ok v)).
  { destruct (setTransform (b_core (w_buf w)) m a st) as [s' [[|]|cl e|]] eqn:E2; cbn [snd].
    - destruct (set_settles (w_buf w) m a st s' Bi (wi_times T w I) Hv E2) as (b2 & evs & E3 & _). rewrite Es in E3. inversion E3; subst. reflexivity.
    - unfold set_transform in Es. rewrite E2 in Es. inversion Es; subst. reflexivity.
    - unfold set_transform in Es. rewrite E2 in Es. inversion Es; subst. reflexivity.
    - unfold set_transform in Es. rewrite E2 in Es. inversion Es; subst. reflexivity. }
  set (w1 := mkWorld b (w_filters w) (w_dead w)) in *.
  assert (S1 : forall k, seen w1 k = option_map (fun f => with_buf f b) (seen w k)) by (intros k; unfold w1, seen; cbn [w_filters w_buf]; destruct (nth_error (w_filters w) k) as [[g|]|]; reflexivity).
  (* one filter alone *)
  assert (Al : forall k f, seen w k = Some f -> mf_step f (MTransform m a st read) = match r with Ok (_, evs) => fst (fire (with_buf f b) evs read) | _ => with_buf f b end /\
    match r with Ok (_, evs) => snd (fire (with_buf f b) evs read) = Ok tt | _ => True end).
  { intros k f Hf. destruct (transform_quiet T f m a st read (wi_quiet T w k f I Hf) Hv) as (_ & _ & E & _). cbn [mf_step]. unfold mf_set_transform in *. rewrite (seen_buf _ _ _ Hf) in *. rewrite Es in *.
    destruct r as [[v evs]|c e|]; [|split; [reflexivity|exact Logic.I]|split; [reflexivity|exact Logic.I]]. rewrite Sv in E. cbn [bind] in E.
    destruct (fire (with_buf f b) evs read) as [f2 [[]|c e|]]; cbn [fst snd] in *; [auto|discriminate E|discriminate E]. }
  assert (G : exists w', match r with Ok (v, evs) => match fire_all w1 evs read with (w2, Ok _) => (w2, Ok v) | (w2, Throw c e) => (w2, Throw c e) | (w2, UB) => (w2, UB) end
      | Throw c e => (w1, Throw c e) | UB => (w1, UB) end = (w', snd (setTransform (b_core (w_buf w)) m a st)) /\ w_buf w' = b /\ w_dead w' = w_dead w /\
      forall k, seen w' k = option_map (fun f => mf_step f (MTransform m a st read)) (seen w k)).
  { rewrite Sv. destruct r as [[v evs]|c e|].
    - destruct (fire_all_each evs w1 read) as (w' & F & B & D & Each).
      + intros i j f g Hij Hf Hg. apply seen_same in Hf as (f2 & Hf & ->). apply seen_same in Hg as (g2 & Hg & ->). apply (wi_apart T w I i j f2 g2); assumption.
      + intros e He Hd. destruct (so_src _ _ _ _ _ Fa e He) as (p & Hp & (Fc & _) & _). destruct (wi_dead T w I _ Hd) as (_ & D2 & _). apply (D2 p Hp). auto.
      + intros k f Hf. apply seen_same in Hf as (g & Hg & ->). apply (Al k g Hg).
      + exists w'. rewrite F. split; [reflexivity|]. split; [exact B|]. split; [exact D|]. intros k. rewrite Each, S1. destruct (seen w k) as [g|] eqn:Hg; [|reflexivity]. cbn [option_map]. f_equal. symmetry. apply (Al k g Hg).
    - exists w1. split; [reflexivity|]. split; [reflexivity|]. split; [reflexivity|]. intros k. rewrite S1. destruct (seen w k) as [g|] eqn:Hg; [|reflexivity]. cbn [option_map]. f_equal. symmetry. apply (Al k g Hg).
    - exists w1. split; [reflexivity|]. split; [reflexivity|]. split; [reflexivity|]. intros k. rewrite S1. destruct (seen w k) as [g|] eqn:Hg; [|reflexivity]. cbn [option_map]. f_equal. symmetry. apply (Al k g Hg). }
  destruct G as (w' & G & Bw & Dw & Sw). rewrite G in *. cbn [fst snd] in *. rewrite Bw in Rm.
  assert (Sm : forall k f, seen w' k = Some f -> exists g, seen w k = Some g /\ f = mf_step g (MTransform m a st read) /\ f_cb f = f_cb g /\ f_buf f = b).
  { intros k f Hf. pose proof (seen_buf _ _ _ Hf) as Bf. rewrite Sw in Hf. destruct (seen w k) as [g|] eqn:Hg; [|discriminate Hf]. cbn [option_map] in Hf. injection Hf as Hf. exists g. split; [reflexivity|]. split; [auto|]. split; [|congruence].
    rewrite <- Hf. transitivity (f_cb (match r with Ok (_, evs) => fst (fire (with_buf g b) evs read) | _ => with_buf g b end)); [f_equal; exact (proj1 (Al k g Hg))|]. destruct r as [[v evs]|c e|]; [|reflexivity|reflexivity]. rewrite (proj2 (fire_keeps evs (with_buf g b) read)). reflexivity. }
  split; [|split; [|split; [|split; [exact Dw|split; [rewrite Bw; auto|exact Sw]]]]].
  - constructor; rewrite ?Bw, ?Dw.
    + apply (wi_T T w I).
    + rewrite <- Nx. apply next_reach; [exact R|exact Hv|rewrite Nx; apply roomy_small; exact Rm].
    + rewrite <- Nx. apply next_times; [exact R|split; [exact Hv|exact Logic.I]|apply (wi_times T w I)].
    + apply Rm.
    + apply Rm.
    + intros k f Hf. destruct (Sm k f Hf) as (g & Hg & E & _ & Bf). rewrite E in Bf |- *. apply calm_step; [eapply wi_calm; eassumption|exact Hv|rewrite Bf; apply Rm|rewrite Bf; destruct Rm; lia].
    + intros i j f g Hij Hf Hg. destruct (Sm i f Hf) as (f2 & Hf2 & _ & -> & _). destruct (Sm j g Hg) as (g2 & Hg2 & _ & -> & _). apply (wi_apart T w I i j); assumption.
    + intros p Hp. rewrite Cbs. apply (wi_named T w I p). apply Pn. exact Hp.
    + intros d Hd. destruct (wi_dead T w I d Hd) as (D1 & D2 & D3). rewrite Cbs. split; [exact D1|]. split; [intros p Hp; apply D2, Pn, Hp|]. intros k f Hf. destruct (Sm k f Hf) as (g & Hg & _ & -> & _). apply (D3 k g Hg).
    + apply (wi_once T w I).
  - intros k f f' Hf Hf'. destruct (Sm k f' Hf') as (g & Hg & E & _). rewrite Hf in Hg. inversion Hg; subst g. exists [MTransform m a st read]. split; [reflexivity|]. cbn [mf_run]. auto.
  - reflexivity.
Qed.

Lemma step_all : forall T w o, winv T w -> w_calm_op T w o -> roomy (w_buf (w_step w o)) -> winv T (w_step w o) /\ projects w o (w_step w o).
Proof.
  intros T w o I Co Rm. destruct o as [target q cbq|k|k o|m a st read|o]; cbn [w_step w_calm_op] in *.
  - apply step_new; assumption.
  - apply step_destroy; assumption.
  - destruct (own_call o) eqn:Ow.
    + destruct (seen w k) as [f0|] eqn:Sf; [apply step_own; try assumption; apply Co; reflexivity|]. split; [exact I|]. intros j f f' Hf Hf'. rewrite Hf in Hf'. inversion Hf'; subst.
      destruct (Nat.eq_dec k j) as [->|N]; [congruence|]. exists []. split; [cbn [alone]; rewrite (proj2 (Nat.eqb_neq k j) N); constructor|reflexivity].
    + split; [exact I|]. apply same_projects. intros j. exists []. split; [cbn [alone]; rewrite Ow, andb_false_r; constructor|reflexivity].
  - destruct (step_transform T w m a st read I Co Rm) as (A & B & _). auto.
  - destruct (keeps_out w o) eqn:Ko; [apply step_other; assumption|]. split; [exact I|]. apply same_projects. intros k. exists []. split; [constructor|reflexivity].
Qed.
Lemma calm_winv : forall T w, w_calm T w -> winv T w.
Proof.
  intros T w C. induction C as [b H0 Hb Ht Hn Hc Hl|w o C IH Ho Hc Hl]; [|apply step_all; [exact IH|exact Ho|split; assumption]].
  assert (N : forall k, @seen S (mkWorld b [] []) k = None) by (intros k; unfold seen; cbn [w_filters]; destruct k; reflexivity).
  constructor; cbn [w_buf w_dead]; try assumption.
  - intros k f Hf. rewrite N in Hf. discriminate Hf.
  - intros j k f g _ Hf. rewrite N in Hf. discriminate Hf.
  - intros h [].
  - constructor.
Qed.
End P.
