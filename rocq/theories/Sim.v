(** * Two buffers that agree on what they know give the same answers

    A simulation between walks in two buffers [s] and [s'] whose histories agree on a set
    [P] of names that the walks do not leave; and between the error-reporting and the
    silent ([err' = None]) variants of the same walk. *)
From Coq Require Import ZArith Bool List String Lia Arith.
From Verif Require Import RosTime Scalar LinearMath Cache SpecCache CacheProofs CacheQueries
  BufferCore SpecCore CoreInv Naturality CoreSet WalkSpec LctSpec Bridge WalkMain.
Import ListNotations.
Open Scope Z_scope.

(** Related results; [lax] allows the left side to fail with rostime's range exception. *)
Definition simr (lax : bool) {X Y} (R : X -> Y -> Prop) (r : res X) (r' : res Y) : Prop :=
  match r with
  | Ok x => exists y, r' = Ok y /\ R x y
  | Throw c e => (lax = true /\ c = RuntimeError /\ e = ETimeRange) \/ r' = Throw c e
  | UB => r' = UB
  end.
Lemma simr_bind : forall lax X Y X' Y' (R : X -> Y -> Prop) (Q : X' -> Y' -> Prop) r r' f g,
  simr lax R r r' -> (forall x y, R x y -> simr lax Q (f x) (g y)) ->
  simr lax Q (bind r f) (bind r' g).
Proof.
  intros lax X Y X' Y' R Q [x|c e|] r' f g H K; cbn in *.
  - destruct H as (y & -> & H). cbn. auto.
  - destruct H as [H| ->]; auto.
  - subst. reflexivity.
Qed.
Lemma simr_ok : forall lax X Y (R : X -> Y -> Prop) x y, R x y -> simr lax R (Ok x) (Ok y).
Proof. intros. cbn. eauto. Qed.

Local Opaque MAX_GRAPH_DEPTH.

Section P.
Context {S : Scalar}.
Notation storage := (storage S nat).
Notation cache := (cache S nat).
Notation core := (core S).
Notation taccum := (@taccum S).
Variables (s s' : core) (W : wf s) (W' : wf s') (P : string -> Prop) (lax : bool).
Hypothesis Hist : forall n, P n -> hist s n = hist s' n.

Definition rel (i i' : nat) : Prop :=
  live s i /\ live s' i' /\ name_of s i = name_of s' i' /\ P (name_of s i).
Definition rel0 (i i' : nat) : Prop := (i = 0%nat /\ i' = 0%nat) \/ rel i i'.
Definition erel (e e' : errp) : Prop := if lax then e' = None else e' = e.

Lemma rel_eqb : forall i i' j j', rel i i' -> rel j j' -> Nat.eqb i j = Nat.eqb i' j'.
Proof.
  intros i i' j j' (L1 & L1' & N1 & _) (L2 & L2' & N2 & _).
  destruct (Nat.eqb i j) eqn:E; symmetry.
  - apply Nat.eqb_eq in E. subst j. apply Nat.eqb_eq. apply (live_inj s'); congruence.
  - apply Nat.eqb_neq in E. apply Nat.eqb_neq. intros ->. apply E. apply (live_inj s); congruence.
Qed.
Lemma rel_nz : forall i i', rel i i' -> Nat.eqb i 0 = false /\ Nat.eqb i' 0 = false.
Proof. intros i i' ([H _] & [H' _] & _). split; apply Nat.eqb_neq; assumption. Qed.
Lemma rel0_nz : forall i i', rel0 i i' -> Nat.eqb i 0 = Nat.eqb i' 0.
Proof. intros i i' [[-> ->]|H]; [reflexivity|]. destruct (rel_nz i i' H) as [-> ->]. reflexivity. Qed.

Definition crel (c c' : cache) : Prop := map_cache (name_of s) c = map_cache (name_of s') c'.
Lemma rel_frame : forall i i', rel i i' ->
  (exists c c', getFrame s i = Some c /\ getFrame s' i' = Some c' /\ crel c c') \/
  (getFrame s i = None /\ getFrame s' i' = None).
Proof.
  intros i i' (L & L' & N & HP). pose proof (Hist _ HP) as H.
  destruct (getFrame s i) as [c|] eqn:E; destruct (getFrame s' i') as [c'|] eqn:E'.
  - left. exists c, c'. repeat split. rewrite (hist_frame s i c W (proj1 L) E), N, (hist_frame s' i' c' W' (proj1 L') E') in H.
    unfold crel. congruence.
  - exfalso. rewrite (hist_frame s i c W (proj1 L) E), N, (hist_frame_none s' i' W' (proj1 L') (proj2 L') E') in H. discriminate.
  - exfalso. rewrite (hist_frame_none s i W (proj1 L) (proj2 L) E), N, (hist_frame s' i' c' W' (proj1 L') E') in H. discriminate.
  - right. auto.
Qed.

Definition strel (d d' : storage) : Prop := map_storage (name_of s) d = map_storage (name_of s') d'.
Lemma strel_fields : forall d d', strel d d' -> st_rot d = st_rot d' /\ st_trans d = st_trans d' /\ st_stamp d = st_stamp d'
  /\ name_of s (st_frame d) = name_of s' (st_frame d').
Proof. intros d d' H. unfold strel, map_storage in H. inversion H. auto. Qed.

Definition arel (a a' : taccum) : Prop :=
  match ta_st a, ta_st a' with Some d, Some d' => strel d d' | None, None => True | _, _ => False end /\
  ta_time a = ta_time a' /\ ta_sq a = ta_sq a' /\ ta_sv a = ta_sv a' /\ ta_tq a = ta_tq a' /\ ta_tv a = ta_tv a' /\
  ta_rq a = ta_rq a' /\ ta_rv a = ta_rv a'.

Definition odrel (o o' : option storage) : Prop :=
  match o, o' with Some d, Some d' => strel d d' | None, None => True | _, _ => False end.

Lemma data_rel : forall i i' c c' t e e', rel i i' -> getFrame s i = Some c -> getFrame s' i' = Some c' -> crel c c' ->
  erel e e' ->
  simr lax (fun p p' => odrel (fst p) (fst p') /\ erel (snd p) (snd p'))
    (getData Nat.eqb c t e) (getData Nat.eqb c' t e').
Proof.
  intros i i' c c' t e e' R E E' C He.
  assert (G : forall x, simr false (fun p p' => odrel (fst p) (fst p') /\ snd p = snd p')
     (getData Nat.eqb c t x) (getData Nat.eqb c' t x)).
  { intros x. pose proof (name_getData s i c t x W E) as N1. pose proof (name_getData s' i' c' t x W' E') as N2.
    rewrite <- C, N1 in N2. destruct (getData Nat.eqb c t x) as [[o e1]|cl e1|]; destruct (getData Nat.eqb c' t x) as [[o' e2]|cl' e2|];
      cbn in N2; try discriminate; cbn.
    - inversion N2; subst. exists (o', e2). split; [reflexivity|]. cbn. split; [|reflexivity].
      destruct o as [d|], o' as [d'|]; cbn in *; try discriminate; try exact I. unfold strel. congruence.
    - right. congruence.
    - reflexivity. }
  unfold erel in *. destruct lax.
  - subst e'. destruct (wf_cache s W _ _ E) as (Hok & _ & _).
    pose proof (G None) as G0. destruct (getData_err Nat.eqb c t e Hok) as [(d & E1 & E2)|(E1 & [(x & E2 & _)|(_ & E2)])];
      rewrite E1 in G0; rewrite E2; cbn in G0; destruct G0 as ([o' e2] & G1 & G2 & G3); cbn in G2, G3; subst; rewrite G1.
    + cbn. exists (o', None). auto.
    + cbn. exists (o', None). auto.
    + cbn. left. auto.
  - subst e'. specialize (G e). destruct (getData Nat.eqb c t e) as [[o e1]|cl e1|]; cbn in *.
    + destruct G as ([o' e2] & G1 & G2 & G3). exists (o', e2). cbn in *. auto.
    + destruct G as [[? _]|G]; [discriminate|]. auto.
    + assumption.
Qed.

(** parents that are read are live or 0 *)
Definition closed (t : time) : Prop := forall n d, P n -> link s t n = Some d -> P (st_frame d).

Lemma gather_rel : forall t i i' c c' a a' e e', closed t -> rel i i' ->
  getFrame s i = Some c -> getFrame s' i' = Some c' -> crel c c' -> arel a a' -> erel e e' ->
  simr lax (fun p p' => let '(a, q, e) := p in let '(a', q', e') := p' in arel a a' /\ rel0 q q' /\ erel e e')
    (ta_gather a c t e) (ta_gather a' c' t e').
Proof.
  intros t i i' c c' a a' e e' Cl R E E' C A He. unfold ta_gather.
  pose proof (data_rel i i' c c' t e e' R E E' C He) as D.
  destruct (getData Nat.eqb c t e) as [[o x]|cl x|] eqn:Eg; cbn in D |- *.
  - destruct D as ([o' x'] & E2 & Ho & Hx). cbn in Ho, Hx. rewrite E2. cbn.
    destruct o as [d|], o' as [d'|]; cbn in Ho; try contradiction; cbn.
    + eexists. split; [reflexivity|]. cbn. split; [destruct A as (_ & A); split; [assumption|exact A]|].
      split; [|assumption].
      assert (Ld : lnk s t i = if Nat.eqb (st_frame d) 0 then None else Some d).
      { destruct (wf_cache s W _ _ E) as (Hok & _ & _).
        unfold lnk, idata. rewrite E. destruct (getData_err Nat.eqb c t e Hok) as [(d1 & E3 & E4)|(_ & [(y & E4 & _)|(_ & E4)])];
          rewrite Eg in E4; inversion E4; subst. rewrite E3. reflexivity. }
      assert (Bd : (st_frame d < List.length (c_rev s))%nat /\ (st_frame d' < List.length (c_rev s'))%nat).
      { apply getData_in in Eg as (y & Hy & F1 & _). apply getData_in in E2 as (y' & Hy' & F2 & _).
        destruct (wf_cache s W _ _ E) as (_ & _ & H3). destruct (wf_cache s' W' _ _ E') as (_ & _ & H3').
        split; [rewrite <- F1; apply (H3 y Hy)|rewrite <- F2; apply (H3' y' Hy')]. }
      destruct (strel_fields d d' Ho) as (_ & _ & _ & N).
      destruct (Nat.eqb (st_frame d) 0) eqn:Ez.
      * left. apply Nat.eqb_eq in Ez. split; [assumption|]. rewrite Ez, (name_of_0 s W) in N.
        apply Nat.eqb_eq. rewrite <- (name_of_NO_PARENT s' _ W' (proj2 Bd)). apply String.eqb_eq. auto.
      * right. apply Nat.eqb_neq in Ez. destruct R as (L & L' & Nn & HP).
        split; [split; [assumption|apply Bd]|]. split.
        { split; [|apply Bd]. intros Hz. rewrite Hz, (name_of_0 s' W') in N. apply Ez.
          apply Nat.eqb_eq. rewrite <- (name_of_NO_PARENT s _ W (proj1 Bd)). apply String.eqb_eq. auto. }
        split; [assumption|]. apply (Cl (name_of s i) (map_storage (name_of s) d) HP).
        rewrite (link_lnk s t i W L), Ld. reflexivity.
    + eexists. split; [reflexivity|]. cbn. split; [assumption|]. split; [left; auto|assumption].
  - destruct D as [D|D]; [auto|]. rewrite D. cbn. auto.
  - rewrite D. reflexivity.
Qed.

Lemma accum_rel : forall a a' b, arel a a' -> arel (ta_accum a b) (ta_accum a' b).
Proof.
  intros a a' b A. pose proof A as A0. unfold ta_accum. destruct A as (A1 & A2 & A3 & A4 & A5 & A6 & A7 & A8).
  destruct (ta_st a) as [d|] eqn:E, (ta_st a') as [d'|] eqn:E'; try contradiction; [|assumption].
  destruct (strel_fields d d' A1) as (F1 & F2 & _). unfold arel. 
  destruct b; cbn; rewrite ?F1, ?F2, ?A3, ?A4, ?A5, ?A6; repeat split; assumption.
Qed.
Lemma finalize_rel : forall a a' b t, arel a a' -> arel (ta_finalize a b t) (ta_finalize a' b t).
Proof.
  intros a a' b t A. destruct A as (A1 & A2 & A3 & A4 & A5 & A6 & A7 & A8).
  unfold ta_finalize, arel. destruct b; cbn; rewrite ?A3, ?A4, ?A5, ?A6; repeat split; try assumption; reflexivity.
Qed.

Local Opaque ta_finalize ta_accum.
Notation lrel := (Forall2 rel).
Lemma lrel_snoc : forall l l' i i', lrel l l' -> rel i i' -> lrel (l ++ [i]) (l' ++ [i']).
Proof. intros. apply Forall2_app; auto. Qed.

Ltac fin := apply simr_ok; cbn [fst snd]; try match goal with |- ?R (_ _) _ => unfold R end;
  repeat match goal with |- _ /\ _ => split end; auto using lrel_snoc, finalize_rel.

Definition srel (r r' : @src_result taccum) : Prop :=
  match r, r' with
  | SDone a ch, SDone a' ch' => arel a a' /\ lrel ch ch'
  | STop a top x b ch, STop a' top' x' b' ch' => arel a a' /\ rel top top' /\ erel x x' /\ b = b' /\ lrel ch ch'
  | SLoop, SLoop => True
  | _, _ => False
  end.

Lemma walkSource_rel : forall fuel t target target' frame frame' top top' a a' x x' ch ch',
  closed t -> rel target target' -> rel frame frame' -> arel a a' -> erel x x' -> lrel ch ch' ->
  simr lax srel (walkSource ta_gather ta_accum ta_finalize fuel s t target frame top a x ch)
                (walkSource ta_gather ta_accum ta_finalize fuel s' t target' frame' top' a' x' ch').
Proof.
  induction fuel as [|fuel IH]; intros t target target' frame frame' top top' a a' x x' ch ch' Cl Rt Rf A X L;
    cbn [walkSource]; destruct (rel_nz _ _ Rf) as [-> ->];
    pose proof (rel_frame _ _ Rf) as [(c & c' & E & E' & C)|[E E']]; rewrite E, E'.
  all: try (fin).
  all: eapply simr_bind; [eapply (gather_rel t frame frame'); eassumption|];
    intros [[a1 p] e] [[a1' p'] e'] (A1 & Rp & E1); rewrite (rel0_nz _ _ Rp);
    destruct (Nat.eqb p' 0) eqn:Ez;
    [ fin |];
    rewrite (rel_eqb _ _ _ _ Rf Rt); destruct (Nat.eqb frame' target');
    [ fin |].
  - apply simr_ok. exact I.
  - apply IH; auto; [|apply accum_rel; assumption|apply lrel_snoc; assumption].
    destruct Rp as [[_ ->]|Rp]; [discriminate|assumption].
Qed.

Definition trel (r r' : @tgt_result taccum) : Prop :=
  match r, r' with
  | TDone a ch, TDone a' ch' => arel a a' /\ lrel ch ch'
  | TStop a f e ch, TStop a' f' e' ch' => arel a a' /\ rel f f' /\ erel e e' /\ lrel ch ch'
  | TExtrap e, TExtrap e' => erel e e'
  | TLoop e, TLoop e' => erel e e'
  | _, _ => False
  end.

Lemma walkTarget_rel : forall fuel t source source' top top' frame frame' a a' x x' ch ch',
  closed t -> rel source source' -> rel top top' -> rel frame frame' -> arel a a' -> erel x x' -> lrel ch ch' ->
  simr lax trel (walkTarget ta_gather ta_accum ta_finalize fuel s t source top frame a x ch)
                (walkTarget ta_gather ta_accum ta_finalize fuel s' t source' top' frame' a' x' ch').
Proof.
  induction fuel as [|fuel IH]; intros t source source' top top' frame frame' a a' x x' ch ch' Cl Rs Rt Rf A X L;
    cbn [walkTarget]; rewrite (rel_eqb _ _ _ _ Rf Rt);
    (destruct (Nat.eqb frame' top'); [fin|]);
    pose proof (rel_frame _ _ Rf) as [(c & c' & E & E' & C)|[E E']]; rewrite E, E'.
  all: try (fin).
  all: eapply simr_bind; [eapply (gather_rel t frame frame'); eassumption|];
    intros [[a1 p] e] [[a1' p'] e'] (A1 & Rp & E1); rewrite (rel0_nz _ _ Rp);
    destruct (Nat.eqb p' 0) eqn:Ez; [ apply simr_ok; exact E1 |];
    rewrite (rel_eqb _ _ _ _ Rf Rs); destruct (Nat.eqb frame' source');
    [ fin |].
  - apply simr_ok. exact E1.
  - apply IH; auto; [|apply accum_rel; assumption|apply lrel_snoc; assumption].
    destruct Rp as [[_ ->]|Rp]; [discriminate|assumption].
Qed.

(** ** chain pruning *)
Lemma common_prefix_rel : forall l1 l1' l2 l2', lrel l1 l1' -> lrel l2 l2' -> common_prefix l1 l2 = common_prefix l1' l2'.
Proof.
  intros l1 l1' l2 l2' H. revert l2 l2'. induction H as [|x x' l1 l1' Hx H IH]; intros l2 l2' H2; [reflexivity|].
  inversion H2; subst; cbn; [reflexivity|]. rewrite (rel_eqb _ _ _ _ Hx H0). destruct (Nat.eqb x' y); [|reflexivity].
  f_equal. auto.
Qed.
Lemma lrel_rev : forall l l', lrel l l' -> lrel (rev l) (rev l').
Proof. intros l l' H. induction H; cbn; [constructor|]. apply lrel_snoc; assumption. Qed.
Lemma lrel_firstn : forall k l l', lrel l l' -> lrel (firstn k l) (firstn k l').
Proof. induction k as [|k IH]; intros l l' H; [constructor|]. inversion H; subst; cbn; [constructor|]. constructor; auto. Qed.
Lemma lrel_length : forall l l', lrel l l' -> List.length l = List.length l'.
Proof. intros l l' H. induction H; cbn; auto. Qed.
Lemma prune_rel : forall fc fc' rc rc', lrel fc fc' -> lrel rc rc' ->
  simr lax lrel (prune_chain fc rc) (prune_chain fc' rc').
Proof.
  intros fc fc' rc rc' H1 H2. unfold prune_chain.
  rewrite <- (common_prefix_rel _ _ _ _ (lrel_rev _ _ H1) (lrel_rev _ _ H2)).
  rewrite <- (lrel_length _ _ H1), <- (lrel_length _ _ H2).
  set (n := Z.of_nat (List.length fc) - 1 - _). set (m := Z.of_nat (List.length rc) - 1 - _).
  destruct (0 <? n); [destruct (Z.of_nat (List.length fc) <? n + 2)|].
  - reflexivity.
  - apply simr_ok. apply Forall2_app; [apply lrel_firstn; assumption|apply lrel_rev, lrel_firstn; assumption].
  - apply simr_ok. apply Forall2_app; [assumption|apply lrel_rev, lrel_firstn; assumption].
Qed.

(** ** error texts; loop messages list all frames and may differ *)
Definition elrel (e e' : errp) : Prop :=
  erel e e' \/ (lax = false /\ exists a b, e = Some (ELoop a) /\ e' = Some (ELoop b)).
Lemma loop_rel : forall e e', erel e e' -> simr lax elrel (loop_error s e) (loop_error s' e').
Proof.
  intros e e' H. destruct (loop_ok s e W) as [a ->]. destruct (loop_ok s' e' W') as [b ->]. apply simr_ok.
  unfold elrel, erel in *. destruct lax; [left; subst; reflexivity|]. subst e'. destruct e; [right; eauto|left; reflexivity].
Qed.
Lemma when_rel : forall source source' target target' x x' e e', rel source source' -> rel target target' -> erel e e' ->
  (lax = false -> e <> None -> x = x') ->
  simr lax erel (when_error s source target x e) (when_error s' source' target' x' e').
Proof.
  intros source source' target target' x x' e e' (L1 & L1' & N1 & _) (L2 & L2' & N2 & _) H Hx.
  rewrite !when_ok by assumption. apply simr_ok. unfold erel in *. destruct lax; [subst; reflexivity|].
  subst e'. destruct e; [|reflexivity]. rewrite Hx by congruence. rewrite N1, N2. reflexivity.
Qed.
Lemma conn_rel : forall source source' target target' e e', rel source source' -> rel target target' -> erel e e' ->
  simr lax erel (connectivity_error s source target e) (connectivity_error s' source' target' e').
Proof.
  intros source source' target target' e e' (L1 & L1' & N1 & _) (L2 & L2' & N2 & _) H.
  rewrite !connectivity_ok by assumption. apply simr_ok. unfold erel in *. destruct lax; [subst; reflexivity|].
  subst e'. rewrite N1, N2. reflexivity.
Qed.

Definition wrel (p p' : tf2_error * taccum * errp * list nat) : Prop :=
  let '(code, a, e, ch) := p in let '(code', a', e', ch') := p' in
  code = code' /\ arel a a' /\ elrel e e' /\ lrel ch ch'.

Lemma walk_at_rel : forall t target target' source source' a a' e e',
  closed t -> rel target target' -> rel source source' -> arel a a' -> erel e e' ->
  simr lax wrel (walk_at ta_gather ta_accum ta_finalize s t target source a e)
                (walk_at ta_gather ta_accum ta_finalize s' t target' source' a' e').
Proof.
  intros t target target' source source' a a' e e' Cl Rt Rs A He. unfold walk_at.
  eapply simr_bind.
  { apply walkSource_rel; try eassumption; [|constructor].
    unfold erel in *. destruct lax; subst; reflexivity. }
  intros [a1 ch|a1 top x b ch|] [a1' ch'|a1' top' x' b' ch'|] H; cbn in H; try contradiction.
  - destruct H as [H1 H2]. apply simr_ok. cbn. split; [reflexivity|]. split; [assumption|]. split; [left; assumption|assumption].
  - destruct H as (H1 & H2 & H3 & <- & H5). eapply simr_bind; [eapply walkTarget_rel; try eassumption; constructor|].
    intros [a2 rch|a2 f y rch|y|y] [a2' rch'|a2' f' y' rch'|y'|y'] K; cbn in K; try contradiction.
    + destruct K as [K1 K2]. apply simr_ok. cbn. split; [reflexivity|]. split; [assumption|].
      split; [left; assumption|apply lrel_rev; assumption].
    + destruct K as (K1 & K2 & K3 & K4). rewrite (rel_eqb _ _ _ _ K2 H2). destruct (Nat.eqb f' top').
      * eapply simr_bind; [apply prune_rel; [eassumption|apply lrel_snoc; eassumption]|].
        intros c c' Hc. apply simr_ok. cbn. split; [reflexivity|]. split; [apply finalize_rel; assumption|].
        split; [left; assumption|assumption].
      * destruct b.
        -- eapply simr_bind; [apply when_rel; try eassumption|].
           { intros Hl _. unfold erel in H3. rewrite Hl in H3. subst x'. reflexivity. }
           intros z z' Hz. apply simr_ok. cbn. split; [reflexivity|]. split; [assumption|]. split; [left; assumption|constructor].
        -- eapply simr_bind; [apply conn_rel; eassumption|].
           intros z z' Hz. apply simr_ok. cbn. split; [reflexivity|]. split; [assumption|]. split; [left; assumption|constructor].
    + eapply simr_bind; [apply when_rel; try eassumption|].
      { intros Hl _. unfold erel in K. rewrite Hl in K. subst y'. reflexivity. }
      intros z z' Hz. apply simr_ok. cbn. split; [reflexivity|]. split; [assumption|]. split; [left; assumption|constructor].
    + eapply simr_bind; [apply loop_rel; eassumption|].
      intros z z' Hz. apply simr_ok. cbn. split; [reflexivity|]. split; [assumption|]. split; [assumption|constructor].
  - eapply simr_bind; [apply loop_rel; eassumption|].
    intros z z' Hz. apply simr_ok. cbn. split; [reflexivity|]. split; [assumption|]. split; [assumption|constructor].
Qed.

(** ** latest common time *)
Lemma latest_rel : forall i i' c c', closed 0 -> rel i i' -> getFrame s i = Some c -> getFrame s' i' = Some c' -> crel c c' ->
  simr lax (fun p p' => fst p = fst p' /\ rel0 (parent_id (snd p)) (parent_id (snd p')))
    (getLatestTimeAndParent c) (getLatestTimeAndParent c').
Proof.
  intros i i' c c' Cl R E E' C. destruct R as (L & L' & N & HP).
  pose proof (hist_frame s i c W (proj1 L) E) as H1.
  destruct (wf_cache s W _ _ E) as (Hok & _ & H3). destruct (wf_cache s' W' _ _ E') as (_ & _ & H3').
  pose proof (getLatestTimeAndParent_map (name_of s) c) as M. pose proof (getLatestTimeAndParent_map (name_of s') c') as M'.
  unfold crel in C. rewrite <- C, M in M'. clear M.
  assert (Lk : forall d, idata s 0 i = Some d -> st_frame d <> 0%nat -> P (name_of s (st_frame d))).
  { intros d Hd Hz. apply (Cl (name_of s i) (map_storage (name_of s) d) HP).
    rewrite (link_lnk s 0 i W L). unfold lnk. rewrite Hd, (proj2 (Nat.eqb_neq _ _) Hz). reflexivity. }
  assert (Di : idata s 0 i = match c with Dynamic _ (x :: _) => Some x | Static (Some x) =>
      Some {| st_rot := st_rot x; st_trans := st_trans x; st_stamp := 0; st_frame := st_frame x; st_child := st_child x |} | _ => None end).
  { unfold idata. rewrite E. destruct c as [max [|x l]|[x|]]; reflexivity. }
  assert (K : forall p p', (p < List.length (c_rev s))%nat -> (p' < List.length (c_rev s'))%nat ->
     name_of s p = name_of s' p' -> (p <> 0%nat -> P (name_of s p)) -> rel0 p p').
  { intros p p' Lp Lp' Np HPp. destruct (Nat.eq_dec p 0) as [->|Hz].
    - left. split; [reflexivity|]. apply Nat.eqb_eq. rewrite <- (name_of_NO_PARENT s' _ W' Lp'). rewrite (name_of_0 s W) in Np.
      apply String.eqb_eq. auto.
    - right. split; [split; assumption|]. split; [|auto]. split; [|assumption].
      intros ->. rewrite (name_of_0 s' W') in Np. apply Hz, Nat.eqb_eq. rewrite <- (name_of_NO_PARENT s _ W Lp).
      apply String.eqb_eq. auto. }
  destruct c as [max [|x l]|[x|]].
  - destruct c' as [max' [|x' l']|[x'|]]; try discriminate. apply simr_ok. cbn. split; [reflexivity|left; auto].
  - destruct c' as [max' [|x' l']|[x'|]]; try discriminate. apply simr_ok. cbn in *.
    split; [congruence|]. apply K.
    + apply (H3 x). auto.
    + apply (H3' x'). auto.
    + congruence.
    + intros Hz. apply (Lk x Di Hz).
  - destruct c' as [max' [|x' l']|[x'|]]; try discriminate. apply simr_ok. cbn in *.
    split; [reflexivity|]. apply K.
    + apply (H3 x). auto.
    + apply (H3' x'). auto.
    + congruence.
    + intros Hz. apply (Lk _ Di Hz).
  - destruct Hok as [? H]. discriminate.
Qed.

Notation llrel := (Forall2 (fun p p' : time * nat => fst p = fst p' /\ rel (snd p) (snd p'))).
Definition lsrel (r r' : lct_src) : Prop :=
  match r, r' with
  | LSdone t, LSdone t' => t = t'
  | LSend l, LSend l' => llrel l l'
  | LSloop, LSloop => True
  | _, _ => False
  end.
Lemma lctSource_rel : forall fuel target target' frame frame' common l l', closed 0 ->
  rel target target' -> rel frame frame' -> llrel l l' ->
  simr lax lsrel (lctSource fuel s target frame common l) (lctSource fuel s' target' frame' common l').
Proof.
  induction fuel as [|fuel IH]; intros target target' frame frame' common l l' Cl Rt Rf L;
    cbn [lctSource]; destruct (rel_nz _ _ Rf) as [-> ->];
    pose proof (rel_frame _ _ Rf) as [(c & c' & E & E' & C)|[E E']]; rewrite E, E';
    try (apply simr_ok; assumption);
    (eapply simr_bind; [eapply (latest_rel frame frame'); eassumption|]);
    intros [st p] [st' p'] [Hs Rp]; cbn in Hs, Rp; subst st'; rewrite (rel0_nz _ _ Rp);
    (destruct (Nat.eqb (parent_id p') 0) eqn:Ez; [apply simr_ok; assumption|]);
    (assert (Rp' : rel (parent_id p) (parent_id p')) by (destruct Rp as [[_ Q]|Rp]; [rewrite Q in Ez; discriminate|assumption]));
    rewrite (rel_eqb _ _ _ _ Rp' Rt); (destruct (Nat.eqb (parent_id p') target'); [apply simr_ok; reflexivity|]).
  - apply simr_ok. exact I.
  - apply IH; auto. apply Forall2_app; [assumption|]. constructor; [cbn; auto|constructor].
Qed.

Definition ltrel (r r' : lct_tgt) : Prop :=
  match r, r' with
  | LTdone t, LTdone t' => t = t'
  | LTcommon p t, LTcommon p' t' => rel p p' /\ t = t'
  | LTend, LTend => True
  | LTloop, LTloop => True
  | _, _ => False
  end.
Lemma existsb_rel : forall l l' p p', llrel l l' -> rel p p' ->
  existsb (fun q => Nat.eqb (snd q) p) l = existsb (fun q => Nat.eqb (snd q) p') l'.
Proof.
  intros l l' p p' H Hp. induction H as [|x x' l l' [_ Hx] H IH]; [reflexivity|]. cbn.
  rewrite IH, (rel_eqb _ _ _ _ Hx Hp). reflexivity.
Qed.
Lemma lctTarget_rel : forall fuel source source' l l' frame frame' common, closed 0 ->
  rel source source' -> rel frame frame' -> llrel l l' ->
  simr lax ltrel (lctTarget fuel s source l frame common) (lctTarget fuel s' source' l' frame' common).
Proof.
  induction fuel as [|fuel IH]; intros source source' l l' frame frame' common Cl Rs Rf L;
    cbn [lctTarget];
    pose proof (rel_frame _ _ Rf) as [(c & c' & E & E' & C)|[E E']]; rewrite E, E';
    try (apply simr_ok; exact I);
    (eapply simr_bind; [eapply (latest_rel frame frame'); eassumption|]);
    intros [st p] [st' p'] [Hs Rp]; cbn in Hs, Rp; subst st'; rewrite (rel0_nz _ _ Rp);
    (destruct (Nat.eqb (parent_id p') 0) eqn:Ez; [apply simr_ok; exact I|]);
    (assert (Rp' : rel (parent_id p) (parent_id p')) by (destruct Rp as [[_ Q]|Rp]; [rewrite Q in Ez; discriminate|assumption]));
    rewrite (existsb_rel _ _ _ _ L Rp');
    (destruct (existsb (fun q => Nat.eqb (snd q) (parent_id p')) l'); [apply simr_ok; cbn; auto|]);
    rewrite (rel_eqb _ _ _ _ Rp' Rs); (destruct (Nat.eqb (parent_id p') source'); [apply simr_ok; reflexivity|]).
  - apply simr_ok. exact I.
  - apply IH; auto.
Qed.
Lemma lctMerge_rel : forall l l' p p' common, llrel l l' -> rel p p' -> lctMerge l p common = lctMerge l' p' common.
Proof.
  intros l l' p p' common H Hp. revert common. induction H as [|[t x] [t' x'] l l' [Ht Hx] H IH]; intros common; [reflexivity|].
  cbn in *. subst t'. rewrite (rel_eqb _ _ _ _ Hx Hp). destruct (Nat.eqb x' p'); [reflexivity|]. apply IH.
Qed.

Definition lcrel (p p' : tf2_error * option time * errp) : Prop :=
  let '(code, ot, e) := p in let '(code', ot', e') := p' in
  code = code' /\ ot = ot' /\ elrel e e' /\ (code = NO_ERROR -> erel e e').
Lemma lct_rel : forall target target' source source' e e', closed 0 -> rel target target' -> rel source source' -> erel e e' ->
  simr lax lcrel (getLatestCommonTime s target source e) (getLatestCommonTime s' target' source' e').
Proof.
  intros target target' source source' e e' Cl Rt Rs He. unfold getLatestCommonTime.
  destruct (rel_nz _ _ Rt) as [-> ->]. destruct (rel_nz _ _ Rs) as [-> ->]. cbn [orb].
  rewrite (rel_eqb _ _ _ _ Rs Rt). destruct (Nat.eqb source' target').
  { apply simr_ok. cbn. split; [reflexivity|]. split; [|split; [left|]; auto].
    pose proof (rel_frame _ _ Rs) as [(c & c' & -> & -> & C)|[-> ->]]; [|reflexivity].
    f_equal. rewrite <- (getLatestTimestamp_map (name_of s) c), C. apply getLatestTimestamp_map. }
  eapply simr_bind; [apply lctSource_rel; try eassumption; constructor|].
  intros [t|l|] [t'|l'|] H; cbn in H; try contradiction.
  - subst t'. apply simr_ok. cbn. split; [reflexivity|]. split; [reflexivity|]. split; [left|]; auto.
  - eapply simr_bind; [apply lctTarget_rel; eassumption|].
    intros [t|p t| |] [t'|p' t'| |] K; cbn in K; try contradiction.
    + subst t'. apply simr_ok. cbn. split; [reflexivity|]. split; [reflexivity|]. split; [left|]; auto.
    + destruct K as [K <-]. apply simr_ok. cbn. split; [reflexivity|].
      rewrite (lctMerge_rel _ _ _ _ t H K). split; [reflexivity|]. split; [left|]; auto.
    + eapply simr_bind; [apply conn_rel; eassumption|]. intros z z' Hz. apply simr_ok. cbn. split; [reflexivity|]. split; [reflexivity|].
      split; [left; assumption|discriminate].
    + eapply simr_bind; [apply loop_rel; eassumption|]. intros z z' Hz. apply simr_ok. cbn. split; [reflexivity|]. split; [reflexivity|].
      split; [assumption|discriminate].
  - eapply simr_bind; [apply loop_rel; eassumption|]. intros z z' Hz. apply simr_ok. cbn. split; [reflexivity|]. split; [reflexivity|].
    split; [assumption|discriminate].
Qed.

(** ** whole walks *)
Definition closed_for (t : time) (target source : nat) : Prop :=
  closed t /\ (t = 0 -> forall e u, getLatestCommonTime s target source e = Ok (NO_ERROR, Some u, e) -> closed u).

Lemma walk_rel : forall t target target' source source' a a' e e',
  closed_for t target source -> rel target target' -> rel source source' -> arel a a' -> erel e e' ->
  simr lax wrel (walkToTopParent ta_gather ta_accum ta_finalize s t target source a e)
                (walkToTopParent ta_gather ta_accum ta_finalize s' t target' source' a' e').
Proof.
  intros t target target' source source' a a' e e' [Cl Cl0] Rt Rs A He.
  destruct (Nat.eq_dec source target) as [Eq|Ne].
  - subst target. assert (source' = target').
    { apply Nat.eqb_eq. rewrite <- (rel_eqb _ _ _ _ Rs Rt). apply Nat.eqb_refl. }
    subst target'. rewrite !walk_same. apply simr_ok. cbn. split; [reflexivity|].
    split; [apply finalize_rel; assumption|]. split; [left; assumption|constructor].
  - assert (Ne' : source' <> target').
    { apply Nat.eqb_neq. rewrite <- (rel_eqb _ _ _ _ Rs Rt). apply Nat.eqb_neq. assumption. }
    destruct (Z.eq_dec t 0) as [->|Ht].
    + rewrite !walk_zero by assumption.
      pose proof (lct_outcome_ok s target source e W (proj1 Rs) (proj1 Rt) Ne) as Out.
      pose proof (lct_rel target target' source source' e e' Cl Rt Rs He) as LR.
      inversion Out as [ds dt p H1 H2 H3 H4 H5 H6 Eo|ds m dt m' err' H1 H2 H3 H4 H5 Ex Eo|i ds m err' H1 H2 H3 Ex Eo];
        rewrite <- Eo in LR; destruct LR as ([[code' ot'] e1] & -> & <- & <- & Hel & Her); cbn [bind].
      * apply walk_at_rel; auto. apply (Cl0 eq_refl e). symmetry. assumption.
      * apply simr_ok. cbn. split; [reflexivity|]. split; [assumption|]. split; [assumption|constructor].
      * apply simr_ok. cbn. split; [reflexivity|]. split; [assumption|]. split; [assumption|constructor].
    + rewrite !walk_time by assumption. apply walk_at_rel; assumption.
Qed.
End P.
