(** * The frame chain of walkToTopParent / _chainAsVector *)
From Coq Require Import ZArith Bool List String Lia Arith.
From Verif Require Import RosTime Scalar LinearMath Cache SpecCache CacheProofs CacheQueries
  BufferCore SpecCore CoreInv Naturality CoreSet WalkSpec LctSpec Bridge WalkMain Sim Forget LookupBase LookupTheorems.
Import ListNotations.
Open Scope Z_scope.
Local Opaque MAX_GRAPH_DEPTH.

(** ** Pruning *)
Lemma common_prefix_app : forall w l1 l2, common_prefix (w ++ l1) (w ++ l2) = (List.length w + common_prefix l1 l2)%nat.
Proof. induction w as [|x w IH]; intros l1 l2; [reflexivity|]. cbn. rewrite Nat.eqb_refl, IH. reflexivity. Qed.
Lemma common_prefix_disjoint : forall l1 l2, (forall x, In x l1 -> In x l2 -> False) -> common_prefix l1 l2 = 0%nat.
Proof.
  intros [|x l1] [|y l2] H; try reflexivity. cbn. destruct (Nat.eqb x y) eqn:E; [|reflexivity].
  apply Nat.eqb_eq in E. subst. exfalso. apply (H y); cbn; auto.
Qed.
Lemma prune_eq : forall p q w, w <> [] -> (forall x, In x p -> In x q -> False) ->
  prune_chain (p ++ w) (q ++ w) =
  if (1 <? List.length p)%nat then Ok (p ++ firstn 1 w ++ rev q) else Ok (p ++ w ++ rev q).
Proof.
  intros p q w Hw Hd. unfold prune_chain. rewrite !rev_app_distr, common_prefix_app, rev_length.
  rewrite (common_prefix_disjoint (rev p) (rev q)) by (intros x; rewrite <- !in_rev; apply Hd).
  rewrite !app_length, Nat.add_0_r.
  replace (Z.of_nat (List.length p + List.length w) - 1 - Z.of_nat (List.length w)) with (Z.of_nat (List.length p) - 1) by lia.
  replace (Z.of_nat (List.length q + List.length w) - 1 - Z.of_nat (List.length w) + 1) with (Z.of_nat (List.length q)) by lia.
  rewrite Nat2Z.id.
  assert (F : firstn (List.length q) (q ++ w) = q).
  { rewrite firstn_app, firstn_all, Nat.sub_diag, firstn_O, app_nil_r. reflexivity. }
  rewrite F.
  assert (Lw : (0 < List.length w)%nat) by (destruct w; [congruence|cbn; lia]).
  destruct (Z.ltb_spec 0 (Z.of_nat (List.length p) - 1)) as [E|E]; destruct (Nat.ltb_spec 1 (List.length p)) as [E'|E']; try lia.
  - rewrite (proj2 (Z.ltb_ge _ _)) by lia.
    replace (Z.to_nat (Z.of_nat (List.length p) - 1 + 2)) with (List.length p + 1)%nat by lia.
    rewrite firstn_app, firstn_all2 by lia. replace (List.length p + 1 - List.length p)%nat with 1%nat by lia.
    rewrite <- app_assoc. reflexivity.
  - rewrite <- app_assoc. reflexivity.
Qed.

Section P.
Context {S : Scalar}.
Notation storage := (storage S nat).
Notation core := (core S).
Notation taccum := (@taccum S).
Implicit Types (s : core) (i : nat) (t : time) (err : errp) (tgt src : string).
Notation twalk := (@walkToTopParent S taccum ta_gather ta_accum ta_finalize).
Notation ta_walk_at := (@walk_at S taccum ta_gather ta_accum ta_finalize).

(** ** The accumulated transform does not influence the walk *)
Definition sfg (r : @src_result taccum) : option (nat * errp * bool * list nat) + list nat :=
  match r with SDone _ ch => inr ch | STop _ top e b ch => inl (Some (top, e, b, ch)) | SLoop => inl None end.
Definition tfg (r : @tgt_result taccum) : nat * errp * nat * list nat :=
  match r with TDone _ ch => (0%nat, None, 0%nat, ch) | TStop _ f e ch => (1%nat, e, f, ch)
  | TExtrap e => (2%nat, e, 0%nat, []) | TLoop e => (3%nat, e, 0%nat, []) end.
Definition rmap {X Y} (f : X -> Y) (r : res X) : res Y := bind r (fun x => Ok (f x)).

Lemma gather_acc : forall a a' (c : cache S nat) t e,
  rmap (fun p => (snd (fst p), snd p)) (ta_gather a c t e) = rmap (fun p => (snd (fst p), snd p)) (ta_gather a' c t e).
Proof.
  intros. unfold ta_gather, rmap. destruct (getData Nat.eqb c t e) as [[[d|] e']| |]; reflexivity.
Qed.
Lemma walkSource_acc : forall fuel s t target frame top a a' ext ch,
  rmap sfg (walkSource ta_gather ta_accum ta_finalize fuel s t target frame top a ext ch) =
  rmap sfg (walkSource ta_gather ta_accum ta_finalize fuel s t target frame top a' ext ch).
Proof.
  induction fuel as [|fuel IH]; intros s t target frame top a a' ext ch; cbn [walkSource];
    (destruct (Nat.eqb frame 0); [reflexivity|]); (destruct (getFrame s frame) as [c|]; [|reflexivity]);
    pose proof (gather_acc a a' c t ext) as G;
    destruct (ta_gather a c t ext) as [[[b p] e]| |]; destruct (ta_gather a' c t ext) as [[[b' p'] e']| |]; cbn in G; inversion G; subst; try reflexivity;
    cbn [bind]; (destruct (Nat.eqb p' 0); [reflexivity|]); (destruct (Nat.eqb frame target); [reflexivity|]); [reflexivity|apply IH].
Qed.
Lemma walkTarget_acc : forall fuel s t source top frame a a' err ch,
  rmap tfg (walkTarget ta_gather ta_accum ta_finalize fuel s t source top frame a err ch) =
  rmap tfg (walkTarget ta_gather ta_accum ta_finalize fuel s t source top frame a' err ch).
Proof.
  induction fuel as [|fuel IH]; intros s t source top frame a a' err ch; cbn [walkTarget];
    (destruct (Nat.eqb frame top); [reflexivity|]); (destruct (getFrame s frame) as [c|]; [|reflexivity]);
    pose proof (gather_acc a a' c t err) as G;
    destruct (ta_gather a c t err) as [[[b p] e]| |]; destruct (ta_gather a' c t err) as [[[b' p'] e']| |]; cbn in G; inversion G; subst; try reflexivity;
    cbn [bind]; (destruct (Nat.eqb p' 0); [reflexivity|]); (destruct (Nat.eqb frame source); [reflexivity|]); [reflexivity|apply IH].
Qed.
Definition wfg (p : tf2_error * taccum * errp * list nat) := let '(code, _, e, ch) := p in (code, e, ch).
Lemma walk_at_acc : forall s t target source a a' err,
  rmap wfg (ta_walk_at s t target source a err) = rmap wfg (ta_walk_at s t target source a' err).
Proof.
  intros s t target source a a' err. unfold walk_at.
  set (ext := match err with Some _ => Some EEmpty | None => None end).
  pose proof (walkSource_acc MAX_GRAPH_DEPTH s t target source source a a' ext []) as H.
  destruct (walkSource ta_gather ta_accum ta_finalize MAX_GRAPH_DEPTH s t target source source a ext []) as [r| |];
  destruct (walkSource ta_gather ta_accum ta_finalize MAX_GRAPH_DEPTH s t target source source a' ext []) as [r'| |]; cbn in H; try discriminate;
    try (inversion H; subst; reflexivity).
  destruct r as [b chain|b top x m chain|], r' as [b' chain'|b' top' x' m' chain'|]; cbn in H; try discriminate; cbn [bind].
  - inversion H; subst. reflexivity.
  - inversion H; subst. pose proof (walkTarget_acc MAX_GRAPH_DEPTH s t source top' target b b' err []) as K.
    destruct (walkTarget ta_gather ta_accum ta_finalize MAX_GRAPH_DEPTH s t source top' target b err []) as [r| |];
    destruct (walkTarget ta_gather ta_accum ta_finalize MAX_GRAPH_DEPTH s t source top' target b' err []) as [r'| |]; cbn in K; try discriminate;
      try (inversion K; subst; reflexivity).
    destruct r, r'; cbn in K; try discriminate; inversion K; subst; cbn [bind]; try reflexivity.
    + destruct (Nat.eqb frame0 top').
      * destruct (prune_chain chain' (rchain0 ++ [frame0])); reflexivity.
      * destruct m'; [destruct (when_error _ _ _ _ _)|destruct (connectivity_error _ _ _ _)]; reflexivity.
    + destruct (when_error _ _ _ _ _); reflexivity.
    + destruct (loop_error _ _); reflexivity.
  - destruct (loop_error _ _); reflexivity.
Qed.
Lemma twalk_acc : forall s t target source a a' err,
  rmap wfg (twalk s t target source a err) = rmap wfg (twalk s t target source a' err).
Proof.
  intros. destruct (Nat.eq_dec source target) as [->|Ne]; [rewrite !walk_same; reflexivity|].
  destruct (Z.eq_dec t 0) as [->|Ht]; [|rewrite !walk_time by assumption; apply walk_at_acc].
  rewrite !walk_zero by assumption. destruct (getLatestCommonTime s target source err) as [[[code ot] e]| |]; cbn [bind]; try reflexivity.
  destruct code; try reflexivity. apply walk_at_acc.
Qed.

(** ** What the chain is *)
Inductive chain_shape s t target source (ch : list nat) : Prop :=
| sh_up : forall ds, iclimb s t source ds target -> ch = map st_child ds ++ [target] -> chain_shape s t target source ch
| sh_down : forall dt, iclimb s t target dt source -> ch = source :: rev (map st_child dt) -> chain_shape s t target source ch
| sh_top : forall ds dt m, iclimb s t source ds m -> iclimb s t target dt m -> lnk s t m = None ->
    (forall i, In i (map st_child ds) -> i <> target) -> (forall i, In i (map st_child dt) -> i <> source /\ i <> m) ->
    prune_chain (map st_child ds ++ [m]) (map st_child dt ++ [m]) = Ok ch -> chain_shape s t target source ch.

Lemma walk_chain : forall s t target source a e a' e' ch, wf s -> live s source -> live s target -> source <> target ->
  twalk s t target source a (Some e) = Ok (NO_ERROR, a', e', ch) ->
  exists b, twalk s t target source taccum0 (Some e) = Ok (NO_ERROR, b, e', ch) /\ e' = Some e /\
    chain_shape s (ta_time b) target source ch.
Proof.
  intros s t target source a e a' e' ch W Ls Lt Ne H.
  pose proof (twalk_acc s t target source a taccum0 (Some e)) as E. rewrite H in E. cbn in E.
  destruct (twalk s t target source taccum0 (Some e)) as [[[[code b] e1] ch1]| |] eqn:Eb; cbn in E; try discriminate.
  inversion E; subst e1 ch1. exists b.
  match goal with K : NO_ERROR = code |- _ => subst code | _ => idtac end.
  split; [congruence|].
  assert (At : forall u, ta_walk_at s u target source taccum0 (Some e) = Ok (NO_ERROR, b, e', ch) -> e' = Some e /\ chain_shape s (ta_time b) target source ch).
  { intros u Hu. pose proof (walk_at_outcome s u target source (Some e) W Ls Lt) as O. rewrite Hu in O. inversion O; subst.
    - split; [reflexivity|]. eapply sh_up; [eassumption|reflexivity].
    - split; [reflexivity|]. eapply sh_down; [eassumption|]. rewrite rev_app_distr. reflexivity.
    - split; [reflexivity|]. eapply sh_top; eassumption.
    - exfalso. destruct (getFrame s m'); [|destruct (getFrame s m)]; discriminate. }
  destruct (Z.eq_dec t 0) as [->|Ht]; [|rewrite walk_time in Eb by assumption; eapply At; rewrite Eb; congruence].
  rewrite walk_zero in Eb by assumption.
  destruct (lct_outcome_ok s target source (Some e) W Ls Lt Ne); cbn [bind] in Eb; try discriminate.
  eapply At. rewrite Eb. congruence.
Qed.

(** id-level uniqueness *)
Definition idepth_ok s t i : Prop := forall ds j, iclimb s t i ds j -> (List.length ds <= MAX_GRAPH_DEPTH)%nat.
Lemma iacyclic : forall s t i ds1 m ds2, idepth_ok s t i -> iclimb s t i ds1 m -> iclimb s t m ds2 m -> ds2 = [].
Proof.
  intros s t i ds1 m ds2 Hd H1 H2. destruct ds2 as [|d ds2]; [reflexivity|]. exfalso.
  assert (G : forall k, exists es, iclimb s t m es m /\ (k <= List.length es)%nat).
  { induction k as [|k (es & He & L)]; [exists []; split; [constructor|cbn; lia]|].
    exists ((d :: ds2) ++ es). split; [eapply iclimb_app; eassumption|]. rewrite app_length. cbn. lia. }
  destruct (G (Datatypes.S MAX_GRAPH_DEPTH)) as (es & He & L).
  pose proof (Hd _ _ (iclimb_app _ _ _ _ _ _ _ H1 He)) as Q. rewrite app_length in Q. lia.
Qed.
Lemma isame_end : forall s t i ds1 ds2 m, idepth_ok s t i -> iclimb s t i ds1 m -> iclimb s t i ds2 m -> ds1 = ds2.
Proof.
  intros s t i ds1 ds2 m Hd H1 H2. destruct (iclimb_linear _ _ _ _ _ _ _ H1 H2) as [(r & -> & Hr)|(r & -> & Hr)].
  - rewrite (iacyclic s t i ds1 m r Hd H1 Hr), app_nil_r. reflexivity.
  - rewrite (iacyclic s t i ds2 m r Hd H2 Hr), app_nil_r. reflexivity.
Qed.
Lemma ichild_first : forall s t i d ds j, wf s -> iclimb s t i (d :: ds) j -> st_child d = i.
Proof. intros s t i d ds j W H. inversion H; subst. eapply lnk_props; eassumption. Qed.
Lemma to_top : forall s t i ds m ds0 c, iclimb s t i ds m -> lnk s t m = None -> iclimb s t i ds0 c ->
  exists w, ds = ds0 ++ w /\ iclimb s t c w m.
Proof.
  intros s t i ds m ds0 c H Hn H0. destruct (iclimb_linear _ _ _ _ _ _ _ H H0) as [(r & -> & Hr)|(r & -> & Hr)]; [|eauto].
  inversion Hr; subst; [exists []; rewrite !app_nil_r; split; [reflexivity|constructor]|congruence].
Qed.

Lemma chain_is_path : forall s t target source ch ds dt c, wf s -> idepth_ok s t source -> idepth_ok s t target ->
  chain_shape s t target source ch -> iclimb s t source ds c -> iclimb s t target dt c ->
  (forall i, In i (map st_child ds) -> In i (map st_child dt) -> False) ->
  (List.length ds <> 1%nat \/ dt = [] \/ lnk s t c = None) ->
  ch = map st_child ds ++ c :: rev (map st_child dt).
Proof.
  intros s t target source ch ds dt c W Ds Dt Sh H1 H2 Disj Hok. destruct Sh as [es He ->|es He ->|es et m He Het Hm Hnt Hns Hp].
  - (* straight up *)
    assert (E : ds = es ++ dt) by (eapply isame_end; [exact Ds|exact H1|eapply iclimb_app; eassumption]).
    destruct dt as [|d dt].
    + inversion H2; subst. rewrite app_nil_r. reflexivity.
    + exfalso. apply (Disj (st_child d)); [rewrite E, map_app; apply in_app_iff; right|]; cbn; auto.
  - assert (E : dt = es ++ ds) by (eapply isame_end; [exact Dt|exact H2|eapply iclimb_app; eassumption]).
    destruct ds as [|d ds].
    + inversion H1; subst. rewrite app_nil_r. reflexivity.
    + exfalso. apply (Disj (st_child d)); [|rewrite E, map_app; apply in_app_iff; right]; cbn; auto.
  - destruct (to_top s t source es m ds c He Hm H1) as (w & -> & Hw).
    destruct (to_top s t target et m dt c Het Hm H2) as (w' & -> & Hw').
    assert (w' = w).
    { destruct (to_top s t c w m w' m Hw Hm Hw') as (r & -> & Hr). inversion Hr; subst; [rewrite app_nil_r; reflexivity|congruence]. }
    subst w'. rewrite !map_app, <- !app_assoc in Hp.
    rewrite prune_eq in Hp; [|destruct (map st_child w); discriminate|exact Disj].
    assert (Hd : firstn 1 (map st_child w ++ [m]) = [c]).
    { destruct w as [|d w]; [inversion Hw; subst; reflexivity|]. cbn. rewrite (ichild_first s t c d w m W Hw). reflexivity. }
    destruct (1 <? List.length (map st_child ds))%nat eqn:El.
    + rewrite Hd in Hp. inversion Hp. reflexivity.
    + apply Nat.ltb_ge in El. rewrite map_length in El.
      assert (Wn : w = []).
      { destruct w as [|d w]; [reflexivity|]. exfalso.
        pose proof (ichild_first s t c d w m W Hw) as Ec.
        destruct Hok as [Hl|[->|Hl]].
        - destruct ds as [|d0 [|d1 ds]]; cbn in El, Hl; [|lia|lia]. inversion H1; subst.
          destruct (Hns (st_child d)) as [N _]; [rewrite map_app; apply in_app_iff; right; cbn; auto|]. apply N. congruence.
        - inversion H2; subst. apply (Hnt (st_child d)); [|congruence]. rewrite map_app. apply in_app_iff. right. cbn. auto.
        - inversion Hw; subst. congruence. }
      subst w. inversion Hw; subst. cbn in Hp. inversion Hp. reflexivity.
Qed.

(** The remaining case: the path turns at the source's parent, which is not the root. *)
Lemma chain_turns : forall s t target source ch d dt w m, wf s -> idepth_ok s t source -> idepth_ok s t target ->
  chain_shape s t target source ch -> lnk s t source = Some d -> iclimb s t target dt (st_frame d) -> dt <> [] ->
  ~ In source (map st_child dt) -> iclimb s t (st_frame d) w m -> lnk s t m = None ->
  ch = source :: map st_child w ++ m :: rev (map st_child dt).
Proof.
  intros s t target source ch d dt w m W Ds Dt Sh Hl Hc Hne Hni Hw Hm.
  assert (H1 : iclimb s t source [d] (st_frame d)) by (econstructor; [eassumption|constructor]).
  assert (Cs : st_child d = source) by (eapply lnk_props; eassumption).
  destruct Sh as [es He ->|es He ->|es et m' He Het Hm' Hnt Hns Hp].
  - exfalso. assert (E : [d] = es ++ dt) by (eapply isame_end; [exact Ds|exact H1|eapply iclimb_app; eassumption]).
    destruct es as [|x es].
    + cbn in E. subst dt. apply Hni. cbn. auto.
    + cbn in E. inversion E. destruct es; destruct dt; try discriminate. congruence.
  - exfalso. assert (E : dt = es ++ [d]) by (eapply isame_end; [exact Dt|exact Hc|eapply iclimb_app; eassumption]).
    apply Hni. rewrite E, map_app. apply in_app_iff. right. cbn. auto.
  - destruct (to_top s t source es m' [d] (st_frame d) He Hm' H1) as (w1 & -> & Hw1).
    destruct (to_top s t target et m' dt (st_frame d) Het Hm' Hc) as (w2 & -> & Hw2).
    assert (U : forall u v n n', iclimb s t (st_frame d) u n -> lnk s t n = None -> iclimb s t (st_frame d) v n' -> lnk s t n' = None -> u = v /\ n = n').
    { intros u v n n' Hu Nu Hv Nv. destruct (to_top s t (st_frame d) u n v n' Hu Nu Hv) as (r & -> & Hr).
      inversion Hr; subst; [rewrite app_nil_r; auto|congruence]. }
    destruct (U w1 w m' m Hw1 Hm' Hw Hm) as [-> ->]. destruct (U w2 w m m Hw2 Hm Hw Hm) as [-> _]. clear U.
    rewrite !map_app, <- !app_assoc in Hp.
    rewrite prune_eq in Hp; [|destruct (map st_child w); discriminate|].
    + cbn in Hp. rewrite <- app_assoc in Hp. cbn in Hp. rewrite Cs in Hp. inversion Hp. reflexivity.
    + intros x [<-|[]] Hx. rewrite Cs in Hx. auto.
Qed.

(** ** By name *)
Lemma passed_nm : forall s (ds : list storage), passed (map (map_storage (name_of s)) ds) = map (name_of s) (map st_child ds).
Proof. intros. unfold passed. rewrite !map_map. reflexivity. Qed.
Lemma iclimb_children_live : forall s t i ds j, wf s -> live s i -> iclimb s t i ds j -> Forall (live s) (map st_child ds).
Proof.
  intros s t i ds j W L H. induction H as [i|i d ds j E H IH]; [constructor|]. cbn. constructor.
  - destruct (lnk_props s t i d W E) as [-> _]. assumption.
  - apply IH. eapply lnk_live; eassumption.
Qed.
Lemma strings_ok : forall s l, wf s -> Forall (live s) l -> map_res (lookupFrameString s) l = Ok (map (name_of s) l).
Proof.
  intros s l W H. induction H as [|x l [_ Hx] _ IH]; [reflexivity|]. cbn. rewrite (frame_string s x W Hx). cbn.
  rewrite IH. reflexivity.
Qed.
Lemma named_disjoint : forall s l l', wf s -> Forall (live s) l -> Forall (live s) l' ->
  (forall n, In n (map (name_of s) l) -> In n (map (name_of s) l') -> False) -> forall i, In i l -> In i l' -> False.
Proof. intros s l l' W L L' H i H1 H2. apply (H (name_of s i)); apply in_map; assumption. Qed.

Lemma leg_walk : forall s tgt src t m a, wf s -> tgt <> src -> lookupTransform s tgt src t = Ok m ->
  exists i j a' ch, live s i /\ live s j /\ i <> j /\ name_of s i = src /\ name_of s j = tgt /\ lookupFrameNumber s src = i /\ lookupFrameNumber s tgt = j /\
    twalk s t j i a (Some EEmpty) = Ok (NO_ERROR, a', Some EEmpty, ch) /\ chain_shape s (tm_stamp m) j i ch.
Proof.
  intros s tgt src t m a W Ne H. destruct (lookup_ok_inv s tgt src t m W Ne H) as (_ & K1 & _ & K2 & b & e & ch & Hw & ->).
  destruct (known_live s src W K2) as (i & Li & Ni & Fi & _). destruct (known_live s tgt W K1) as (j & Lj & Nj & Fj & _).
  rewrite Fi, Fj in Hw. assert (Nij : i <> j) by congruence.
  pose proof (twalk_acc s t j i taccum0 a (Some EEmpty)) as E. rewrite Hw in E. cbn in E.
  destruct (twalk s t j i a (Some EEmpty)) as [[[[code a'] e1] ch1]| |] eqn:Ea; cbn in E; try discriminate.
  inversion E; subst e1 ch1. assert (code = NO_ERROR) by congruence. subst code.
  destruct (walk_chain s t j i a EEmpty a' e ch W Li Lj Nij Ea) as (b' & Hb & -> & Sh).
  rewrite Hw in Hb. inversion Hb; subst b'. exists i, j, a', ch. cbn [tm_stamp].
  repeat split; try assumption; try apply Li; try apply Lj.
Qed.

(** One leg: the ids of the chain are exactly the tree path. *)
Definition leg_chain s tgt src t (l : list string) : Prop :=
  forall a, exists a' ch, twalk s t (lookupFrameNumber s tgt) (lookupFrameNumber s src) a (Some EEmpty) = Ok (NO_ERROR, a', Some EEmpty, ch) /\
    Forall (live s) ch /\ map (name_of s) ch = l.

Lemma leg_path : forall s tgt src t m l, wf s -> tgt <> src -> lookupTransform s tgt src t = Ok m ->
  depth_ok s (tm_stamp m) src -> depth_ok s (tm_stamp m) tgt ->
  tree_path s (tm_stamp m) src tgt l -> ~ turns_at_parent s (tm_stamp m) src tgt -> leg_chain s tgt src t l.
Proof.
  intros s tgt src t m l W Ne H Ds Dt (nds & ndt & nc & C1 & C2 & Disj & ->) Hturn a.
  destruct (leg_walk s tgt src t m a W Ne H) as (i & j & a' & ch & Li & Lj & Nij & Ni & Nj & Fi & Fj & Hw & Sh).
  rewrite Fi, Fj. exists a', ch. split; [exact Hw|]. subst src tgt.
  destruct (climbs_iclimb _ _ _ _ _ W C1 i Li eq_refl) as (ds & c & -> & -> & Lc & I1).
  destruct (climbs_iclimb _ _ _ _ _ W C2 j Lj eq_refl) as (dt & c' & -> & Ec & Lc' & I2).
  apply live_inj in Ec; [|assumption|assumption|assumption]. subst c'.
  pose proof (iclimb_children_live _ _ _ _ _ W Li I1) as L1. pose proof (iclimb_children_live _ _ _ _ _ W Lj I2) as L2.
  rewrite !passed_nm in *.
  assert (E : ch = map st_child ds ++ c :: rev (map st_child dt)).
  { eapply (chain_is_path s (tm_stamp m) j i ch ds dt c W (idepth s _ i W Li Ds) (idepth s _ j W Lj Dt) Sh I1 I2).
    - eapply named_disjoint; eassumption.
    - destruct ds as [|d [|d' ds]]; [left; cbn; lia| |left; cbn; lia].
      destruct dt as [|e dt]; [right; left; reflexivity|]. right; right.
      destruct (lnk s (tm_stamp m) c) as [x|] eqn:Ex; [|reflexivity]. exfalso. apply Hturn.
      inversion C1; subst. match goal with K : climbs _ _ _ [] _ |- _ => inversion K; subst end.
      eexists _, (map (map_storage (name_of s)) (e :: dt)). split; [eassumption|].
      match goal with K : name_of s (st_frame d) = name_of s c |- _ => rename K into Enc | _ => idtac end.
      match goal with K : name_of s c = _ |- _ => rename K into Enc | _ => idtac end.
      cbn [st_frame map_storage] in *.
      split; [first [exact C2|rewrite Enc; exact C2|rewrite <- Enc; exact C2]|]. split; [discriminate|]. split.
      + rewrite passed_nm. intros Hin. apply (Disj (name_of s i)); [|exact Hin]. cbn. left. f_equal. eapply ichild_first; eassumption.
      + inversion I1; subst. match goal with K : iclimb _ _ _ [] _ |- _ => inversion K; subst end.
        rewrite (link_lnk s _ _ W Lc), Ex. discriminate. }
  rewrite E. split.
  - apply Forall_app. split; [assumption|]. constructor; [assumption|]. apply Forall_rev. assumption.
  - rewrite map_app. cbn. rewrite map_rev. reflexivity.
Qed.

Lemma leg_turns : forall s tgt src t m d dt w top, wf s -> tgt <> src -> lookupTransform s tgt src t = Ok m ->
  depth_ok s (tm_stamp m) src -> depth_ok s (tm_stamp m) tgt ->
  link s (tm_stamp m) src = Some d -> climbs s (tm_stamp m) tgt dt (st_frame d) -> dt <> [] -> ~ In src (passed dt) ->
  climbs s (tm_stamp m) (st_frame d) w top -> link s (tm_stamp m) top = None ->
  leg_chain s tgt src t (src :: passed w ++ top :: rev (passed dt)).
Proof.
  intros s tgt src t m nd ndt nw ntop W Ne H Ds Dt Hl C2 Hne Hni Cw Ht a.
  destruct (leg_walk s tgt src t m a W Ne H) as (i & j & a' & ch & Li & Lj & Nij & Ni & Nj & Fi & Fj & Hw & Sh).
  rewrite Fi, Fj. exists a', ch. split; [exact Hw|]. subst src tgt.
  rewrite (link_lnk s _ _ W Li) in Hl. destruct (lnk s (tm_stamp m) i) as [d|] eqn:El; [|discriminate].
  cbn [option_map] in Hl. injection Hl as Hl. subst nd. cbn [st_frame map_storage] in *.
  pose proof (lnk_live s _ i d W El) as Lp.
  destruct (climbs_iclimb _ _ _ _ _ W C2 j Lj eq_refl) as (dt & c & -> & Ec & Lc & I2).
  apply live_inj in Ec; [|assumption|assumption|assumption]. subst c.
  destruct (climbs_iclimb _ _ _ _ _ W Cw _ Lp eq_refl) as (w & top & -> & -> & Ltop & Iw).
  assert (Hn : lnk s (tm_stamp m) top = None).
  { rewrite (link_lnk s _ _ W Ltop) in Ht. destruct (lnk s (tm_stamp m) top); [discriminate|reflexivity]. }
  pose proof (iclimb_children_live _ _ _ _ _ W Lj I2) as L2. pose proof (iclimb_children_live _ _ _ _ _ W Lp Iw) as L3.
  rewrite !passed_nm in *.
  assert (E : ch = i :: map st_child w ++ top :: rev (map st_child dt)).
  { eapply (chain_turns s (tm_stamp m) j i ch d dt w top W (idepth s _ i W Li Ds) (idepth s _ j W Lj Dt) Sh El I2);
      [intros ->; apply Hne; reflexivity| |exact Iw|exact Hn]. intros Hin. apply Hni. apply in_map. exact Hin. }
  rewrite E. split.
  - constructor; [assumption|]. apply Forall_app. split; [assumption|]. constructor; [assumption|]. apply Forall_rev. assumption.
  - cbn. rewrite map_app. cbn. rewrite map_rev. reflexivity.
Qed.

Lemma chain_to_target : forall s tgt src t t' l, wf s -> leg_chain s tgt src t l -> chainAsVector s tgt t' src t tgt = Ok l.
Proof.
  intros s tgt src t t' l W H. unfold chainAsVector. destruct (H taccum0) as (a & ch & -> & L & <-). cbn [bind].
  rewrite walk_same. cbn [bind]. rewrite app_nil_r.
  replace (match rev ch with [] => ch | _ :: _ => ch end) with ch by (destruct (rev ch); reflexivity).
  apply strings_ok; assumption.
Qed.
Lemma chain_from_source : forall s tgt src t t' l, wf s -> leg_chain s tgt src t l -> chainAsVector s tgt t src t' src = Ok l.
Proof.
  intros s tgt src t t' l W H. unfold chainAsVector. rewrite walk_same. cbn [bind].
  destruct (H (ta_finalize taccum0 Identity t')) as (a & ch & -> & L & <-). cbn [bind rev app].
  apply strings_ok; assumption.
Qed.
Lemma chain_join : forall s tgt src fix_ t1 t2 l1 l2, wf s ->
  leg_chain s fix_ src t2 (l1 ++ [fix_]) -> leg_chain s tgt fix_ t1 (fix_ :: l2) ->
  chainAsVector s tgt t1 src t2 fix_ = Ok (l1 ++ fix_ :: l2).
Proof.
  intros s tgt src fix_ t1 t2 l1 l2 W H1 H2. unfold chainAsVector. destruct (H1 taccum0) as (a & ch1 & -> & L1 & E1). cbn [bind].
  destruct (H2 a) as (b & ch2 & -> & L2 & E2). cbn [bind].
  destruct ch2 as [|y ch2]; [discriminate|]. cbn in E2. injection E2 as Ey E2.
  assert (X : exists r x, ch1 = r ++ [x]).
  { destruct ch1 as [|z ch1]; [destruct l1; discriminate|]. exists (removelast (z :: ch1)), (last (z :: ch1) 0%nat). apply app_removelast_last. discriminate. }
  destruct X as (r & x & ->). rewrite map_app in E1. cbn in E1. apply app_inj_tail in E1 as [E1 Ex].
  apply Forall_app in L1 as [Lr Lx]. inversion Lx; inversion L2; subst.
  assert (x = y) by (eapply live_inj; try eassumption; congruence). subst y.
  rewrite rev_app_distr. cbn [rev app]. rewrite Nat.eqb_refl, rev_involutive.
  rewrite strings_ok; [|assumption|apply Forall_app; split; [assumption|constructor; assumption]].
  rewrite map_app. cbn. reflexivity.
Qed.

(** ** The tree path: exists, is unique, has no repetition *)
Lemma climbs_child : forall s t n d ds m, reachable s -> known s n -> climbs s t n (d :: ds) m -> st_child d = n.
Proof.
  intros s t n d ds m R K H. pose proof (reachable_wf s R) as W. destruct (known_live s n W K) as (i & Li & <- & _).
  inversion H; subst. rewrite (link_lnk s t i W Li) in *. destruct (lnk s t i) as [x|] eqn:Ex; [|discriminate].
  cbn [option_map] in *. match goal with E : Some _ = Some _ |- _ => inversion E; subst end. cbn. f_equal. eapply lnk_props; eassumption.
Qed.
Lemma link_parent_known : forall s t n d, reachable s -> known s n -> link s t n = Some d -> known s (st_frame d).
Proof.
  intros s t n d R K H. pose proof (reachable_wf s R) as W. destruct (known_live s n W K) as (i & Li & <- & _).
  rewrite (link_lnk s t i W Li) in *. destruct (lnk s t i) as [x|] eqn:Ex; [|discriminate].
  cbn [option_map] in *. match goal with E : Some _ = Some _ |- _ => inversion E; subst end. cbn. apply live_known; [assumption|]. eapply lnk_live; eassumption.
Qed.
Lemma passed_above : forall s t n ds m x, reachable s -> known s n -> climbs s t n ds m -> In x (passed ds) ->
  exists d1 d d2, ds = d1 ++ d :: d2 /\ climbs s t n d1 x /\ climbs s t x (d :: d2) m.
Proof.
  intros s t n ds m x R K H. revert K. induction H as [n|n d ds m E H IH]; intros K Hin; [destruct Hin|].
  assert (Cd : st_child d = n) by (eapply climbs_child; [eassumption|eassumption|econstructor; eassumption]).
  destruct Hin as [Hin|Hin].
  - exists [], d, ds. split; [reflexivity|]. cbn in Hin. rewrite <- Hin, Cd. split; [constructor|econstructor; eassumption].
  - destruct (IH (link_parent_known s t n d R K E) Hin) as (d1 & e & d2 & -> & C1 & C2).
    exists (d :: d1), e, d2. split; [reflexivity|]. split; [econstructor; eassumption|assumption].
Qed.

Theorem path_exists : forall s t a b c, reachable s -> known s a -> known s b -> depth_ok s t a -> depth_ok s t b ->
  common_ancestor s t a b c -> exists l, tree_path s t a b l.
Proof.
  intros s t a b c R Ka Kb Da Db H.
  assert (G : forall k ds c, (List.length ds <= k)%nat -> climbs s t a ds c -> forall dt, climbs s t b dt c -> exists l, tree_path s t a b l).
  { clear c H. induction k as [|k IH]; intros ds c Lk H1 dt H2.
    - destruct ds; [|cbn in Lk; lia]. exists (c :: rev (passed dt)), [], dt, c. repeat split; try assumption. intros n [].
    - destruct (existsb (fun n => existsb (String.eqb n) (passed dt)) (passed ds)) eqn:Ex.
      + apply existsb_exists in Ex as (n & Hn & Hm). apply existsb_exists in Hm as (n' & Hm & E). apply String.eqb_eq in E. subst n'.
        destruct (passed_above s t a ds c n R Ka H1 Hn) as (d1 & d & d2 & -> & C1 & _).
        destruct (passed_above s t b dt c n R Kb H2 Hm) as (e1 & e & e2 & -> & C2 & _).
        apply (IH d1 n) with (dt := e1); [|assumption|assumption]. rewrite app_length in Lk. cbn in Lk. lia.
      + exists (passed ds ++ c :: rev (passed dt)), ds, dt, c. repeat split; try assumption.
        intros n Hn Hm. assert (T : existsb (fun n => existsb (String.eqb n) (passed dt)) (passed ds) = true); [|congruence].
        apply existsb_exists. exists n. split; [assumption|]. apply existsb_exists. exists n. split; [assumption|apply String.eqb_refl]. }
  destruct H as [[ds H1] [dt H2]]. eapply G; [apply le_n|eassumption|eassumption].
Qed.

Lemma passed_NoDup : forall s t n ds m, reachable s -> known s n -> depth_ok s t n -> climbs s t n ds m -> NoDup (passed ds) /\ ~ In m (passed ds).
Proof.
  intros s t n ds m R K D H. revert K D. induction H as [n|n d ds m E H IH]; intros K D; [split; [constructor|intros []]|].
  assert (Cd : st_child d = n) by (eapply climbs_child; [eassumption|eassumption|econstructor; eassumption]).
  pose proof (link_parent_known s t n d R K E) as Kp.
  assert (C1 : climbs s t n [d] (st_frame d)) by (econstructor; [eassumption|constructor]).
  destruct (IH Kp (depth_up s t n [d] _ D C1)) as [I1 I2].
  assert (Cyc : forall x, climbs s t (st_frame d) x n -> False).
  { intros x Hx. assert (Z : d :: x = []); [|discriminate]. eapply (depth_acyclic s t n [] n (d :: x) D); [constructor|]. econstructor; eassumption. }
  cbn. rewrite Cd. split.
  - constructor; [|assumption]. intros Hin. destruct (passed_above s t (st_frame d) ds m n R Kp H Hin) as (d1 & _ & _ & _ & C & _).
    eapply Cyc; eassumption.
  - intros [->|Hin]; [eapply Cyc; eassumption|]. auto.
Qed.
Lemma NoDup_join : forall (l1 l2 : list string), NoDup l1 -> NoDup l2 -> (forall x, In x l1 -> In x l2 -> False) -> NoDup (l1 ++ l2).
Proof.
  induction l1 as [|x l1 IH]; intros l2 N1 N2 D; [assumption|]. inversion N1; subst. cbn. constructor.
  - rewrite in_app_iff. intros [Hx|Hx]; [auto|]. apply (D x); cbn; auto.
  - apply IH; try assumption. intros y Hy Hy'. apply (D y); cbn; auto.
Qed.
Theorem path_NoDup : forall s t a b l, reachable s -> known s a -> known s b -> depth_ok s t a -> depth_ok s t b ->
  tree_path s t a b l -> NoDup l.
Proof.
  intros s t a b l R Ka Kb Da Db (ds & dt & c & C1 & C2 & Disj & ->).
  destruct (passed_NoDup s t a ds c R Ka Da C1) as [N1 N1']. destruct (passed_NoDup s t b dt c R Kb Db C2) as [N2 N2'].
  apply NoDup_join; [assumption| |].
  - constructor; [rewrite <- in_rev; assumption|]. apply NoDup_rev. assumption.
  - intros x Hx [<-|Hy]; [auto|]. rewrite <- in_rev in Hy. apply (Disj x); assumption.
Qed.
Theorem path_ends : forall s t a b l, reachable s -> known s a -> known s b -> tree_path s t a b l ->
  (exists l', l = a :: l') /\ (exists l', l = l' ++ [b]).
Proof.
  intros s t a b l R Ka Kb (ds & dt & c & C1 & C2 & Disj & ->). split.
  - destruct ds as [|d ds]; [inversion C1; subst; cbn; eauto|]. cbn. rewrite (climbs_child s t a d ds c R Ka C1). eauto.
  - destruct dt as [|d dt]; [inversion C2; subst; cbn; eauto|]. cbn. rewrite (climbs_child s t b d dt c R Kb C2).
    exists (passed ds ++ c :: rev (passed dt)). rewrite <- app_assoc. reflexivity.
Qed.
Theorem path_unique : forall s t a b l l', reachable s -> known s a -> known s b -> depth_ok s t a -> depth_ok s t b ->
  tree_path s t a b l -> tree_path s t a b l' -> l = l'.
Proof.
  intros s t a b l l' R Ka Kb Da Db (ds & dt & c & C1 & C2 & Disj & ->) (es & et & c' & E1 & E2 & Disj' & ->).
  assert (G : forall ds dt c es et c' w, climbs s t a ds c -> climbs s t b dt c -> climbs s t a es c' -> climbs s t b et c' ->
    (forall n, In n (passed es) -> In n (passed et) -> False) -> climbs s t c w c' -> w = []).
  { clear - Da Db. intros ds dt c es et c' w C1 C2 E1 E2 Disj Cw. destruct w as [|d w]; [reflexivity|]. exfalso.
    rewrite (climbs_same_end s t a es (ds ++ d :: w) c' Da E1 (climbs_app _ _ _ _ _ _ _ C1 Cw)) in Disj.
    rewrite (climbs_same_end s t b et (dt ++ d :: w) c' Db E2 (climbs_app _ _ _ _ _ _ _ C2 Cw)) in Disj.
    apply (Disj (st_child d)); unfold passed; rewrite map_app; apply in_app_iff; right; cbn; auto. }
  assert (Ec : c = c').
  { destruct (climbs_linear _ _ _ _ _ _ _ C1 E1) as [(w & _ & Hw)|(w & _ & Hw)].
    - pose proof (G _ _ _ _ _ _ _ C1 C2 E1 E2 Disj' Hw) as ->. inversion Hw; reflexivity.
    - pose proof (G _ _ _ _ _ _ _ E1 E2 C1 C2 Disj Hw) as ->. inversion Hw; reflexivity. }
  subst c'. rewrite (climbs_same_end s t a ds es c Da C1 E1), (climbs_same_end s t b dt et c Db C2 E2). reflexivity.
Qed.
End P.
