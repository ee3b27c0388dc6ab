(** * A concrete buffer over the reals, used to show that hypotheses are met *)
From Coq Require Import ZArith Bool List String Lia Arith Reals Lra.
From Verif Require Import RosTime Scalar LinearMath Cache SpecCache BufferCore SpecCore Instances RealSlerp
  CoreInv Naturality CoreSet History Bridge Malformed LookupTree ExampleBuffers SpecReal LookupPose.
Import ListNotations.
Open Scope Z_scope.
Open Scope string_scope.

Definition rmsg (parent child : string) (t : Z) (v : vec3 RS) (q : quat RS) : tmsg RS :=
  {| tm_stamp := t; tm_frame := parent; tm_child := child; tm_trans := v; tm_rot := q |}.
Definition turn : quat RS := @Q4 RS (3/5)%R 0%R 0%R (4/5)%R.
Definition spin : quat RS := @Q4 RS 0%R 0%R (3/5)%R (4/5)%R.
Definition still : quat RS := @Q4 RS 0%R 0%R 0%R 1%R.
Definition rv (a b c : R) : vec3 RS := @V3 RS a b c.

(** map -> base moves, base -> lidar and map -> beacon are fixed *)
Definition rbot_ops : list (core_op RS) :=
  [ OSet (rmsg "map" "base" 10 (rv 1 2 3) turn) "me" false;
    OSet (rmsg "map" "base" 20 (rv 3 2 1) still) "me" false;
    OSet (rmsg "base" "lidar" 0 (rv 0 0 1) spin) "me" true;
    OSet (rmsg "/map" "beacon" 0 (rv 5 0 0) turn) "me" true ].
Definition rbot : core RS := run (init_core 100) rbot_ops.

Lemma rbot_ops_ok : Forall op_ok rbot_ops.
Proof. repeat constructor; cbn; unfold valid_time; cbn; lia. Qed.
Lemma rbot_reachable : reachable rbot.
Proof. exists 100, rbot_ops. split; [unfold dur_bound; lia|]. split; [exact rbot_ops_ok|reflexivity]. Qed.
Lemma turn_unit : qunit turn. Proof. unfold qunit, turn. cbn. field. Qed.
Lemma spin_unit : qunit spin. Proof. unfold qunit, spin. cbn. field. Qed.
Lemma still_unit : qunit still. Proof. unfold qunit, still. cbn. field. Qed.
Lemma rbot_unit_ops : unit_ops rbot_ops.
Proof.
  intros m a st [H|[H|[H|[H|[]]]]]; inversion H; subst; cbn [rmsg tm_rot]; auto using turn_unit, spin_unit, still_unit.
Qed.
Lemma rbot_unit : unit_samples rbot.
Proof. apply unit_run; [unfold dur_bound; lia|exact rbot_ops_ok|exact rbot_unit_ops]. Qed.

Lemma good_msg : forall p c t v q, qunit q -> stripSlash c <> stripSlash p -> stripSlash c <> "" -> stripSlash p <> "" ->
  bad_message (strip_msg (rmsg p c t v q)) = false.
Proof.
  intros p c t v [x y z w] U H1 H2 H3. apply not_malformed. rewrite (malformed_real _ x y z w); try assumption; [|reflexivity].
  unfold qunit in U. cbn [qx qy qz qw] in U. replace (w * w + x * x + y * y + z * z - 1)%R with 0%R by lra. rewrite Rabs_R0. lra.
Qed.
Lemma rbot_good : forall o, In o rbot_ops -> match o with OSet m _ _ => bad_message (strip_msg m) = false | OClear => True end.
Proof.
  intros o [<-|[<-|[<-|[<-|[]]]]]; apply good_msg; auto using turn_unit, spin_unit, still_unit; cbn; discriminate.
Qed.

Definition xs (t : Z) (v : vec3 RS) (q : quat RS) (p c : string) : storage RS string :=
  {| st_rot := q; st_trans := v; st_stamp := t; st_frame := p; st_child := c |}.

Lemma rbot_hist : forall n, n <> NO_PARENT -> hist rbot n =
  if String.eqb n "base" then Some (Dynamic 100 [xs 20 (rv 3 2 1) still "map" "base"; xs 10 (rv 1 2 3) turn "map" "base"])
  else if String.eqb n "lidar" then Some (Static (Some (xs 0 (rv 0 0 1) spin "base" "lidar")))
  else if String.eqb n "beacon" then Some (Static (Some (xs 0 (rv 5 0 0) turn "map" "beacon")))
  else None.
Proof.
  intros n Hn. unfold rbot. rewrite hist_run; [|unfold dur_bound; lia|exact rbot_ops_ok|assumption].
  pose proof rbot_good as G. unfold rbot_ops in *. cbn [fold_left frame_step].
  pose proof (G _ (or_introl eq_refl)) as G1. pose proof (G _ (or_intror (or_introl eq_refl))) as G2.
  pose proof (G _ (or_intror (or_intror (or_introl eq_refl)))) as G3. pose proof (G _ (or_intror (or_intror (or_intror (or_introl eq_refl))))) as G4.
  cbn beta iota in G1, G2, G3, G4. rewrite G1, G2, G3, G4.
  change (tm_child (strip_msg (rmsg "map" "base" 10 (rv 1 2 3) turn))) with "base".
  change (tm_child (strip_msg (rmsg "map" "base" 20 (rv 3 2 1) still))) with "base".
  change (tm_child (strip_msg (rmsg "base" "lidar" 0 (rv 0 0 1) spin))) with "lidar".
  change (tm_child (strip_msg (rmsg "/map" "beacon" 0 (rv 5 0 0) turn))) with "beacon".
  rewrite !(String.eqb_sym _ n).
  destruct (String.eqb n "base") eqn:E1; [apply String.eqb_eq in E1; subst n; reflexivity|].
  destruct (String.eqb n "lidar") eqn:E2; [apply String.eqb_eq in E2; subst n; reflexivity|].
  destruct (String.eqb n "beacon") eqn:E3; reflexivity.
Qed.

Lemma rbot_link : forall t n d, link rbot t n = Some d ->
  (n = "base" /\ st_frame d = "map") \/ (n = "lidar" /\ st_frame d = "base") \/ (n = "beacon" /\ st_frame d = "map").
Proof.
  intros t n d H. unfold link, sample_at in H. destruct (string_dec n NO_PARENT) as [->|Hn].
  { rewrite hist_NO_PARENT in H by apply reachable_wf, rbot_reachable. discriminate. }
  rewrite rbot_hist in H by assumption.
  destruct (String.eqb n "base") eqn:E1.
  - apply String.eqb_eq in E1. left. split; [assumption|].
    destruct (getData String.eqb _ t None) as [[[x|] e]| |] eqn:G; try discriminate.
    destruct (String.eqb (st_frame x) NO_PARENT); [discriminate|]. inversion H; subst.
    apply getData_in in G as (y & [<-|[<-|[]]] & F & _); symmetry; exact F.
  - destruct (String.eqb n "lidar") eqn:E2.
    + apply String.eqb_eq in E2. right. left. split; [assumption|]. cbn in H. inversion H; reflexivity.
    + destruct (String.eqb n "beacon") eqn:E3; [|discriminate].
      apply String.eqb_eq in E3. right. right. split; [assumption|]. cbn in H. inversion H; reflexivity.
Qed.
Lemma rbot_depth : forall t n, depth_ok rbot t n.
Proof.
  intros t n. apply (depth_by 2); [|vm_compute; lia].
  cbn [top_within]. destruct (link rbot t n) as [d|] eqn:E; [|reflexivity].
  apply rbot_link in E. destruct (link rbot t (st_frame d)) as [d'|] eqn:E'; [|reflexivity].
  apply rbot_link in E'. destruct (link rbot t (st_frame d')) as [d2|] eqn:E2; [|reflexivity].
  apply rbot_link in E2. exfalso.
  destruct E as [[? E]|[[? E]|[? E]]]; rewrite E in E'; destruct E' as [[? E']|[[? E']|[? E']]]; try discriminate; rewrite E' in E2;
    destruct E2 as [[? ?]|[[? ?]|[? ?]]]; discriminate.
Qed.
Lemma rbot_early : early rbot.
Proof.
  intros n c x H Hx. destruct (string_dec n NO_PARENT) as [->|Hn].
  { rewrite hist_NO_PARENT in H by apply reachable_wf, rbot_reachable. discriminate. }
  rewrite rbot_hist in H by assumption.
  destruct (String.eqb n "base"); [inversion H; subst; destruct Hx as [<-|[<-|[]]]; vm_compute; reflexivity|].
  destruct (String.eqb n "lidar"); [inversion H; subst; destruct Hx as [<-|[]]; vm_compute; reflexivity|].
  destruct (String.eqb n "beacon"); [inversion H; subst; destruct Hx as [<-|[]]; vm_compute; reflexivity|discriminate].
Qed.
Lemma rbot_known : forall n, In n ["map"; "base"; "lidar"; "beacon"] -> known rbot n.
Proof.
  intros n H. unfold rbot. apply known_run; [unfold dur_bound; lia|exact rbot_ops_ok|].
  split; [destruct H as [<-|[<-|[<-|[<-|[]]]]]; discriminate|].
  pose proof rbot_good as G. unfold rbot_ops in *.
  pose proof (G _ (or_introl eq_refl)) as G1. 
  pose proof (G _ (or_intror (or_intror (or_introl eq_refl)))) as G3. pose proof (G _ (or_intror (or_intror (or_intror (or_introl eq_refl))))) as G4.
  destruct H as [<-|[<-|[<-|[<-|[]]]]].
  - apply Exists_cons_hd. split; [exact G1|right; reflexivity].
  - apply Exists_cons_hd. split; [exact G1|left; reflexivity].
  - do 2 apply Exists_cons_tl. apply Exists_cons_hd. split; [exact G3|left; reflexivity].
  - do 3 apply Exists_cons_tl. apply Exists_cons_hd. split; [exact G4|left; reflexivity].
Qed.
Lemma rbot_base_at : exists d, link rbot 15 "base" = Some d /\ st_frame d = "map".
Proof.
  unfold link, sample_at. rewrite rbot_hist by discriminate.
  change (String.eqb "base" "base") with true. cbn iota. eexists. split; reflexivity.
Qed.
Lemma rbot_lidar_at : exists d, link rbot 15 "lidar" = Some d /\ st_frame d = "base".
Proof. unfold link, sample_at. rewrite rbot_hist by discriminate. eexists. split; reflexivity. Qed.
Lemma rbot_beacon_at : exists d, link rbot 15 "beacon" = Some d /\ st_frame d = "map".
Proof. unfold link, sample_at. rewrite rbot_hist by discriminate. eexists. split; reflexivity. Qed.
Lemma rbot_climbs : (exists ds, climbs rbot 15 "lidar" ds "map" /\ List.length ds = 2%nat) /\
  (exists ds, climbs rbot 15 "base" ds "map" /\ List.length ds = 1%nat) /\
  (exists ds, climbs rbot 15 "beacon" ds "map" /\ List.length ds = 1%nat).
Proof.
  destruct rbot_base_at as (d1 & L1 & F1). destruct rbot_lidar_at as (d2 & L2 & F2). destruct rbot_beacon_at as (d3 & L3 & F3).
  repeat split.
  - exists [d2; d1]. split; [|reflexivity]. econstructor; [exact L2|]. rewrite F2. econstructor; [exact L1|]. rewrite F1. constructor.
  - exists [d1]. split; [|reflexivity]. econstructor; [exact L1|]. rewrite F1. constructor.
  - exists [d3]. split; [|reflexivity]. econstructor; [exact L3|]. rewrite F3. constructor.
Qed.
Lemma rbot_lookup : forall a b, In a ["map"; "base"; "lidar"; "beacon"] -> In b ["map"; "base"; "lidar"; "beacon"] ->
  exists m, lookupTransform rbot a b 15 = Ok m.
Proof.
  intros a b Ha Hb. destruct (string_dec a b) as [->|Ne].
  { unfold lookupTransform. rewrite String.eqb_refl. eauto. }
  assert (P : forall n, In n ["map"; "base"; "lidar"; "beacon"] -> plain n) by (intros n [<-|[<-|[<-|[<-|[]]]]]; plain_tac).
  apply (lookup_succeeds_iff rbot a b 15 rbot_reachable rbot_early); auto using rbot_known, rbot_depth; [unfold dur_bound; lia|].
  exists "map". destruct rbot_climbs as ((d1 & C1 & _) & (d2 & C2 & _) & (d3 & C3 & _)).
  assert (G : forall n, In n ["map"; "base"; "lidar"; "beacon"] -> exists ds, climbs rbot 15 n ds "map").
  { intros n [<-|[<-|[<-|[<-|[]]]]]; eauto. exists []. constructor. }
  split; auto.
Qed.
