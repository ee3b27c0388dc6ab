(** * How fast looked-up poses move: proofs *)
From Coq Require Import ZArith Bool Reals List String Lia Lra Psatz Sorting.Sorted.
From Verif Require Import RosTime Scalar LinearMath Cache SpecCache CacheProofs CacheQueries CacheTheorems CacheReal BufferCore SpecCore Instances
  RealSlerp RealQuat SpecReal CoreInv CoreSet CoreTheorems LookupPose SpecRound RoundNorm SpecMotion.
Import ListNotations.
Open Scope R_scope.
Local Open Scope list_scope.
Local Notation sample := (storage RS string).

(** ** Sorted samples: from any one to any later one *)
Lemma next_cons : forall l (x a b : sample), newest_first (x :: l) -> next_in l a b -> next_in (x :: l) a b.
Proof.
  intros l x a b N (Ha & Hb & L & G). split; [right; exact Ha|]. split; [right; exact Hb|]. split; [exact L|].
  intros y [<-|Hy]; [right|exact (G y Hy)]. pose proof (nf_head_max _ _ _ N (or_intror Hb)). lia.
Qed.
Lemma stored_run : forall (f : sample -> vec3 RS) K l, newest_first l ->
  (forall a b, next_in l a b -> vdist (f a) (f b) <= K * IZR (st_stamp b - st_stamp a)) ->
  forall a b, In a l -> In b l -> (st_stamp a <= st_stamp b)%Z -> vdist (f a) (f b) <= K * IZR (st_stamp b - st_stamp a).
Proof.
  intros f K l. induction l as [|x l IH]; intros N H a b Ha Hb L; [destruct Ha|].
  destruct Hb as [<-|Hb].
  - destruct Ha as [<-|Ha]; [rewrite vdist_self, Z.sub_diag; lra|].
    destruct l as [|y l]; [destruct Ha|]. pose proof (proj1 (nf_inv _ _ N)) as N'.
    assert (Y : vdist (f y) (f x) <= K * IZR (st_stamp x - st_stamp y)).
    { apply H. split; [right; left; reflexivity|]. split; [left; reflexivity|]. pose proof (proj2 (nf_inv _ _ N) y (or_introl eq_refl)) as M. split; [lia|].
      intros z [<-|Hz]; [right; lia|]. left. exact (nf_head_max _ _ _ N' Hz). }
    pose proof (nf_head_max _ _ _ N' Ha) as M.
    pose proof (IH N' (fun a b I => H a b (next_cons _ _ _ _ N I)) a y Ha (or_introl eq_refl) M) as A.
    eapply Rle_trans; [apply (vdist_triangle _ (f y))|]. rewrite minus_IZR in *. nra.
  - destruct Ha as [<-|Ha].
    + exfalso. pose proof (proj2 (nf_inv _ _ N) b Hb). lia.
    + exact (IH (proj1 (nf_inv _ _ N)) (fun a b I => H a b (next_cons _ _ _ _ N I)) a b Ha Hb L).
Qed.

(** ** Between two times *)
(** [d] is what the history yields at time [t]: a fraction [r] of the way from [o] to [n]. *)
Definition placed (l : list sample) (o n : sample) (t : Z) (r : R) (d : sample) : Prop :=
  In o l /\ In n l /\ (st_stamp o <= t <= st_stamp n)%Z /\ (o = n \/ next_in l o n) /\
  0 <= r <= 1 /\ IZR (t - st_stamp o) = r * IZR (st_stamp n - st_stamp o) /\
  (o = n -> r = 0) /\
  st_trans d = @vinterp RS (st_trans o) (st_trans n) r /\ st_rot d = @qslerp RS (st_rot o) (st_rot n) r.

Lemma travel_lt : forall (G : sample -> sample -> R -> vec3 RS) (f : sample -> vec3 RS) K l, newest_first l ->
  (forall o, G o o 0 = f o) ->
  (forall o n, next_in l o n -> G o n 0 = f o /\ G o n 1 = f n /\
     forall r r', 0 <= r <= 1 -> 0 <= r' <= 1 -> vdist (G o n r) (G o n r') <= Rabs (r - r') * (K * IZR (st_stamp n - st_stamp o))) ->
  forall o n t r d o' n' t' r' d', placed l o n t r d -> placed l o' n' t' r' d' -> (t < t')%Z ->
  vdist (G o n r) (G o' n' r') <= K * IZR (t' - t).
Proof.
  intros G f K l N G0 H o n t r d o' n' t' r' d' (Io & In_ & B & D & R & E & Z0 & _) (Io' & In' & B' & D' & R' & E' & Z0' & _) L.
  assert (S : forall a b, In a l -> In b l -> (st_stamp a <= st_stamp b)%Z -> vdist (f a) (f b) <= K * IZR (st_stamp b - st_stamp a)).
  { apply stored_run; [exact N|]. intros a b Hab. destruct (H a b Hab) as (A0 & A1 & A). pose proof (A 0 1 ltac:(lra) ltac:(lra)) as Q. rewrite A0, A1 in Q.
    replace (Rabs (0 - 1)) with 1 in Q by (rewrite Rabs_left; lra). lra. }
  destruct (Z_le_gt_dec (st_stamp n) (st_stamp o')) as [Le|Gt].
  - assert (P1 : vdist (G o n r) (f n) <= K * IZR (st_stamp n - t)).
    { destruct D as [<-|D].
      - rewrite (Z0 eq_refl), G0, vdist_self. replace (st_stamp o - t)%Z with 0%Z by lia. lra.
      - destruct (H o n D) as (_ & A1 & A). rewrite <- A1. eapply Rle_trans; [apply A; lra|]. rewrite Rabs_left1 by lra.
        replace (st_stamp n - t)%Z with ((st_stamp n - st_stamp o) - (t - st_stamp o))%Z by lia. rewrite (minus_IZR (_ - _)), E. right. ring. }
    assert (P2 : vdist (f o') (G o' n' r') <= K * IZR (t' - st_stamp o')).
    { destruct D' as [<-|D'].
      - rewrite (Z0' eq_refl), G0, vdist_self. replace (t' - st_stamp o')%Z with 0%Z by lia. lra.
      - destruct (H o' n' D') as (A0 & _ & A). rewrite <- A0. eapply Rle_trans; [apply A; lra|]. rewrite Rabs_left1 by lra. rewrite E'. right. ring. }
    pose proof (S n o' In_ Io' Le) as P3.
    eapply Rle_trans; [apply (vdist_triangle _ (f n))|]. eapply Rle_trans; [apply Rplus_le_compat_l, (vdist_triangle _ (f o'))|].
    replace (t' - t)%Z with ((st_stamp n - t) + (st_stamp o' - st_stamp n) + (t' - st_stamp o'))%Z by lia. rewrite !plus_IZR. lra.
  - assert (o = o' /\ n = n' /\ next_in l o n) as (<- & <- & Nx).
    { destruct D as [<-|D].
      - exfalso. destruct D' as [<-|D']; [lia|]. destruct D' as (_ & _ & _ & D'). destruct (D' o Io); lia.
      - destruct D' as [<-|D'].
        + exfalso. destruct D as (_ & _ & _ & D). destruct (D o' Io'); lia.
        + pose proof D as (_ & _ & _ & D1). pose proof D' as (_ & _ & _ & D1'). pose proof (D1 o' Io'). pose proof (D1 n' In'). pose proof (D1' o Io). pose proof (D1' n In_).
          assert (E1 : st_stamp o = st_stamp o') by lia. assert (E2 : st_stamp n = st_stamp n') by lia.
          split; [exact (nf_unique_stamp _ _ _ N Io Io' E1)|]. split; [exact (nf_unique_stamp _ _ _ N In_ In' E2)|exact D]. }
    destruct (H o n Nx) as (_ & _ & A). eapply Rle_trans; [apply (A r r'); lra|].
    assert (Pos : 0 < IZR (st_stamp n - st_stamp o)) by (apply (IZR_lt 0); destruct Nx as (_ & _ & Nx & _); lia).
    assert (Er : IZR (t' - t) = (r' - r) * IZR (st_stamp n - st_stamp o)).
    { replace (t' - t)%Z with ((t' - st_stamp o) - (t - st_stamp o))%Z by lia. rewrite (minus_IZR (_ - _)), E, E'. ring. }
    assert (r < r'). { assert (0 < IZR (t' - t)) by (apply (IZR_lt 0); lia). nra. }
    rewrite Rabs_left1 by lra. rewrite Er. right. ring.
Qed.

(** ** What a history yields *)
Lemma vinterp_self : forall v : vec3 RS, @vinterp RS v v 0 = v.
Proof. intros v. apply vinterp_0. Qed.
Lemma reads_placed : forall max l t (d : sample) e, cache_ok (Dynamic max l) ->
  (forall a b, In a l -> In b l -> st_frame a = st_frame b) -> t <> 0%Z ->
  getData String.eqb (Dynamic max l) t None = Ok (Some d, e) -> exists o n r, placed l o n t r d /\ st_frame d = st_frame o.
Proof.
  intros max l t d e C P T H. destruct C as [Hm (N & W & _)]. destruct l as [|f l]; [discriminate H|].
  assert (St : forall x, In x (f :: l) -> st_stamp x = t -> exists o n r, placed (f :: l) o n t r x /\ st_frame x = st_frame o).
  { intros x Hx E. exists x, x, 0. split; [|reflexivity]. split; [exact Hx|]. split; [exact Hx|]. split; [lia|]. split; [left; reflexivity|]. split; [lra|].
    split; [rewrite E, Z.sub_diag; ring|]. split; [reflexivity|]. split; [symmetry; apply vinterp_0|symmetry; apply slerp_0]. }
  cbn [getData] in H.
  destruct (position f l t N) as [->|[(Ht & E)|[(Ht & E & _)|[(Ht & B)|[(Ht & L)|(Ht & L)]]]]].
  - destruct (T eq_refl).
  - rewrite find_newest in H by assumption. cbn in H. injection H as <- _. apply St; [left; reflexivity|exact E].
  - rewrite find_oldest in H by assumption. cbn in H. injection H as <- _. apply St; [apply last_in|exact E].
  - destruct (find_between f l t None N Ht B) as (o & n & l1 & l2 & El & B' & Ef). rewrite Ef in H. cbn [bind] in H.
    destruct (in_mid l1 l2 n o) as (In_ & Io). rewrite <- El in In_, Io.
    rewrite (P o n Io In_), String.eqb_refl in H.
    rewrite interpolate_lt with (max := max) in H; [|assumption|lia|apply W; assumption]. cbn [bind] in H. injection H as <- _.
    assert (Pos : 0 < IZR (st_stamp n - st_stamp o)) by (apply (IZR_lt 0); lia).
    exists o, n, (IZR (t - st_stamp o) / IZR (st_stamp n - st_stamp o)). split; [|reflexivity].
    split; [exact Io|]. split; [exact In_|]. split; [lia|]. split.
    { right. split; [exact Io|]. split; [exact In_|]. split; [lia|]. intros x Hx. rewrite El in Hx, N. exact (in_two_neighbours _ _ _ _ _ N Hx). }
    assert (Q : 0 <= IZR (t - st_stamp o) / IZR (st_stamp n - st_stamp o) <= 1).
    { assert (0 <= IZR (t - st_stamp o)) by (apply (IZR_le 0); lia). assert (IZR (t - st_stamp o) <= IZR (st_stamp n - st_stamp o)) by (apply IZR_le; lia).
      split; [apply Rmult_le_pos; [assumption|left; apply Rinv_0_lt_compat; exact Pos]|]. apply (Rmult_le_reg_r (IZR (st_stamp n - st_stamp o))); [exact Pos|]. unfold Rdiv. rewrite Rmult_assoc, Rinv_l by lra. lra. }
    split; [exact Q|]. split; [field; lra|]. split; [intros ->; lia|]. cbn [st_trans st_rot].
    assert (Eq : @sdiv RS (sofns (t - st_stamp o)) (sofns (st_stamp n - st_stamp o)) = IZR (t - st_stamp o) / IZR (st_stamp n - st_stamp o)).
    { cbn [sofns sdiv RS]. assert (K : IZR (10 ^ 9) <> 0) by (apply (IZR_neq (10 ^ 9) 0); discriminate). change (IZR (t - st_stamp o) / IZR (10 ^ 9) / (IZR (st_stamp n - st_stamp o) / IZR (10 ^ 9)) = IZR (t - st_stamp o) / IZR (st_stamp n - st_stamp o)). generalize dependent (IZR (10 ^ 9)). intros k K. field. split; [lra|assumption]. }
    split; [exact (f_equal (@vinterp RS (st_trans o) (st_trans n)) Eq)|exact (f_equal (@qslerp RS (st_rot o) (st_rot n)) Eq)].
  - exfalso. rewrite find_future in H by assumption. destruct l as [|g l]; [discriminate H|]. cbn in H. unfold extrap2 in H. cbn in H. discriminate H.
  - exfalso. rewrite find_past in H by assumption. destruct l as [|g l]; [discriminate H|]. unfold extrap3 in H. cbn in H. discriminate H.
Qed.

(** ** One interval: the translation and the rotation *)
Lemma vinterp_rate : forall (v w : vec3 RS) r r', vdist (@vinterp RS v w r) (@vinterp RS v w r') = Rabs (r - r') * vdist v w.
Proof.
  intros v w r r'. destruct (vinterp_convex v w r) as (A & B & C). destruct (vinterp_convex v w r') as (A' & B' & C').
  unfold vdist. rewrite A, B, C, A', B', C'. rewrite Rabs_minus_sym. rewrite !vnorm_N4. cbn [vx vy vz]. rewrite <- N4_scale.
  f_equal; rr.
Qed.
Lemma vinterp_1 : forall v w : vec3 RS, @vinterp RS v w 1 = w.
Proof.
  intros v w. destruct (vinterp_convex v w 1) as (A & B & C). rewrite <- (vec_eta RS (vinterp v w 1)), A, B, C, <- (vec_eta RS w). cbn [vx vy vz]. cbn [RS scar] in *. f_equal; ring.
Qed.
Lemma vinterp_norm : forall (v w : vec3 RS) r L, 0 <= r <= 1 -> vnorm v <= L -> vnorm w <= L -> vnorm (@vinterp RS v w r) <= L.
Proof.
  intros v w r L Rr A B. destruct (vinterp_convex v w r) as (X & Y & Z). rewrite !vnorm_N4 in *. rewrite X, Y, Z.
  assert (E : N4 ((1 - r) * vx v + r * vx w) ((1 - r) * vy v + r * vy w) ((1 - r) * vz v + r * vz w) 0 <= (1 - r) * N4 (vx v) (vy v) (vz v) 0 + r * N4 (vx w) (vy w) (vz w) 0).
  { pose proof (N4_triangle ((1 - r) * vx v) ((1 - r) * vy v) ((1 - r) * vz v) ((1 - r) * 0) (r * vx w) (r * vy w) (r * vz w) (r * 0)) as T.
    rewrite !N4_scale, (Rabs_right (1 - r)), (Rabs_right r) in T by lra. eapply Rle_trans; [right|exact T]. f_equal. ring. }
  eapply Rle_trans; [exact E|]. nra.
Qed.
Lemma qdist_inner : forall p q : quat RS, qunit p -> qunit q -> qdist p q * qdist p q = 2 - 2 * qinner p q.
Proof.
  intros [a b c d] [e f g h] P Q. unfold qdist. rewrite qnorm_N4, N4_sq. unfold qunit, qinner in *. cbn [qx qy qz qw] in *. cbn [RS scar] in *. lra.
Qed.
Lemma qunit_norm : forall q : quat RS, qunit q -> qnorm q = 1.
Proof. intros q H. unfold qnorm, qunit in *. rewrite H. apply sqrt_1. Qed.
Lemma rotate_near : forall (p q : quat RS) v, qunit p -> qunit q -> vdist (quatRotate p v) (quatRotate q v) <= 2 * qdist p q * vnorm v.
Proof.
  intros p q v P Q. eapply Rle_trans; [apply vdist_rotate|]. rewrite (qunit_norm p P), (qunit_norm q Q), vdist_self. right. ring.
Qed.
Lemma slerp_dist : forall (p q : quat RS) r r', qunit p -> qunit q -> qdist (@qslerp RS p q r) (@qslerp RS p q r') <= Rabs (r - r') * slerp_theta p q.
Proof.
  intros p q r r' P Q. pose proof (slerp_theta_range p q) as (T & _). set (th := slerp_theta p q) in *.
  apply le_sq; [apply Rmult_le_pos; [apply Rabs_pos|exact T]|].
  rewrite qdist_inner by (apply slerp_unit; assumption). rewrite slerp_rate by assumption. fold th.
  set (y := (r - r') * th).
  assert (Y : Rabs (r - r') * th * (Rabs (r - r') * th) = y * y).
  { unfold y. pose proof (Rsqr_abs (r - r')) as K. unfold Rsqr in K. cbn [RS scar] in *. replace (Rabs (r - r') * th * (Rabs (r - r') * th)) with (Rabs (r - r') * Rabs (r - r') * (th * th)) by ring. rewrite <- K. ring. }
  rewrite Y. 
  assert (C : cos y = 1 - 2 * (sin (y / 2) * sin (y / 2))).
  { replace y with (2 * (y / 2)) at 1 by field. rewrite cos_2a_sin. ring. }
  rewrite C.
  assert (S : sin (y / 2) * sin (y / 2) <= (y / 2) * (y / 2)).
  { assert (A : forall x, 0 <= x -> sin x * sin x <= x * x).
    { intros x [X|<-]; [|rewrite sin_0; lra]. destruct (Rle_dec x 1) as [X1|X1].
      - pose proof (sin_lt_x x X). assert (0 < sin x) by (apply sin_gt_0; [assumption|pose proof PI2_1; lra]). nra.
      - pose proof (SIN_bound x). nra. }
    destruct (Rle_dec 0 (y / 2)) as [Y0|Y0]; [apply A; exact Y0|].
    pose proof (A (- (y / 2)) ltac:(lra)) as B. rewrite sin_neg in B. nra. }
  nra.
Qed.
Lemma slerp_moves : forall (p q : quat RS) v r r', qunit p -> qunit q ->
  vdist (quatRotate (@qslerp RS p q r) v) (quatRotate (@qslerp RS p q r') v) <= Rabs (r - r') * (turned_by p q * vnorm v).
Proof.
  intros p q v r r' P Q. eapply Rle_trans; [apply rotate_near; apply slerp_unit; assumption|].
  pose proof (slerp_dist p q r r' P Q) as D. rewrite slerp_theta_unit in D by assumption. unfold turned_by. pose proof (vnorm_pos v). nra.
Qed.

(** ** One link *)
Lemma sample_placed : forall (s : core RS) V W n t d, reachable s -> limited s V W n -> t <> 0%Z -> sample_at s t n = Some d ->
  exists c, hist s n = Some c /\
  ((exists x, c = Static (Some x) /\ st_trans d = st_trans x /\ st_rot d = st_rot x /\ st_frame d = st_frame x) \/
   (exists max l o m r, c = Dynamic max l /\ newest_first l /\ placed l o m t r d /\ st_frame d = st_frame o)).
Proof.
  intros s V W n t d R Li T H. unfold sample_at in H. destruct (hist s n) as [c|] eqn:E; [|discriminate]. exists c. split; [reflexivity|].
  destruct (getData String.eqb c t None) as [[[x|] e]| |] eqn:G; try discriminate. injection H as <-.
  destruct (hist_ok s n c (reachable_wf s R) E) as (Ck & _). destruct (Li c E) as (P & _).
  destruct c as [max l|[y|]]; [|left|discriminate G].
  - right. destruct (reads_placed max l t x e Ck P T G) as (o & m & r & Pl & F). exists max, l, o, m, r. split; [reflexivity|]. split; [exact (proj1 (proj2 Ck))|]. split; assumption.
  - cbn in G. injection G as <- _. exists y. repeat split.
Qed.

Lemma link_sample : forall (s : core RS) t n d, link s t n = Some d -> sample_at s t n = Some d.
Proof. intros s t n d H. unfold link in H. destruct (sample_at s t n) as [x|]; [|discriminate]. destruct (String.eqb (st_frame x) NO_PARENT); [discriminate|exact H]. Qed.

Lemma sample_speed_lt : forall (s : core RS) V W n t t' d d', reachable s -> unit_samples s -> 0 <= V -> 0 <= W -> limited s V W n ->
  t <> 0%Z -> t' <> 0%Z -> (t < t')%Z -> sample_at s t n = Some d -> sample_at s t' n = Some d' ->
  vdist (st_trans d) (st_trans d') <= V * secs (t' - t) /\
  (forall v, vdist (quatRotate (st_rot d) v) (quatRotate (st_rot d') v) <= W * secs (t' - t) * vnorm v).
Proof.
  intros s V W n t t' d d' R U V0 W0 Li T T' L H H'.
  destruct (sample_placed s V W n t d R Li T H) as (c & E & P). destruct (sample_placed s V W n t' d' R Li T' H') as (c' & E' & P'). rewrite E in E'. injection E' as <-.
  assert (Sp : 0 <= secs (t' - t)). { unfold secs. assert (0 <= IZR (t' - t)) by (apply (IZR_le 0); lia). lra. }
  destruct P as [(x & -> & A & B & _)|(max & l & o & m & r & -> & N & P & _)].
  - destruct P' as [(x' & E' & A' & B' & _)|(max & l & o & m & r & E' & _)]; [|discriminate E']. injection E' as <-. rewrite A, A', B, B'. split.
    + rewrite vdist_self. nra.
    + intros v. rewrite vdist_self. pose proof (vnorm_pos v). apply Rmult_le_pos; [nra|assumption].
  - destruct P' as [(x' & E' & _)|(max' & l' & o' & m' & r' & E' & _ & P' & _)]; [discriminate E'|]. injection E' as <- <-.
    destruct (Li _ E) as (_ & Sl). cbn [samples] in Sl.
    assert (Ud : forall x, In x l -> qunit (st_rot x)) by (intros x Hx; exact (U n _ x E Hx)).
    pose proof P as (_ & _ & _ & _ & _ & _ & _ & Et & Er). pose proof P' as (_ & _ & _ & _ & _ & _ & _ & Et' & Er'). split.
    + rewrite Et, Et'. replace (V * secs (t' - t)) with (V / 1000000000 * IZR (t' - t)) by (unfold secs; field).
      refine (travel_lt (fun o n r => @vinterp RS (st_trans o) (st_trans n) r) (fun x => st_trans x) (V / 1000000000) l N _ _ o m t r d o' m' t' r' d' P P' L).
      * intros a. apply vinterp_0.
      * intros a b Hab. split; [apply vinterp_0|]. split; [apply vinterp_1|]. intros p q _ _. rewrite vinterp_rate. apply Rmult_le_compat_l; [apply Rabs_pos|].
        destruct (Sl a b Hab) as (A & _). unfold secs in A. lra.
    + intros v. rewrite Er, Er'. replace (W * secs (t' - t) * vnorm v) with (W / 1000000000 * vnorm v * IZR (t' - t)) by (unfold secs; field).
      refine (travel_lt (fun o n r => quatRotate (@qslerp RS (st_rot o) (st_rot n) r) v) (fun x => quatRotate (st_rot x) v) (W / 1000000000 * vnorm v) l N _ _ o m t r d o' m' t' r' d' P P' L).
      * intros a. rewrite slerp_0. reflexivity.
      * intros a b Hab. pose proof Hab as (Ha & Hb & _). split; [rewrite slerp_0; reflexivity|]. split.
        { rewrite slerp_1 by (apply Ud; assumption). destruct (Rlt_dec _ 0); [apply quatRotate_qneg|reflexivity]. }
        intros p q _ _. eapply Rle_trans; [apply slerp_moves; apply Ud; assumption|]. apply Rmult_le_compat_l; [apply Rabs_pos|].
        destruct (Sl a b Hab) as (_ & A). unfold secs in A. pose proof (vnorm_pos v). nra.
Qed.

Lemma vdist_sym : forall a b : vec3 RS, vdist a b = vdist b a.
Proof. intros a b. unfold vdist, vnorm. cbn [vx vy vz]. cbn [RS scar]. f_equal. ring. Qed.
Theorem sample_speed : forall (s : core RS) V W n t t' d d', reachable s -> unit_samples s -> 0 <= V -> 0 <= W -> limited s V W n ->
  t <> 0%Z -> t' <> 0%Z -> sample_at s t n = Some d -> sample_at s t' n = Some d' ->
  vdist (st_trans d) (st_trans d') <= V * secs (Z.abs (t - t')) /\
  (forall v, vdist (quatRotate (st_rot d) v) (quatRotate (st_rot d') v) <= W * secs (Z.abs (t - t')) * vnorm v).
Proof.
  intros s V W n t t' d d' R U V0 W0 Li T T' H H'. destruct (Z.lt_trichotomy t t') as [L|[<-|L]].
  - rewrite Z.abs_neq by lia. replace (- (t - t'))%Z with (t' - t)%Z by lia. exact (sample_speed_lt s V W n t t' d d' R U V0 W0 Li T T' L H H').
  - rewrite H in H'. injection H' as <-. rewrite Z.sub_diag. cbn [Z.abs]. unfold secs. split; [|intros v]; rewrite vdist_self; lra.
  - rewrite Z.abs_eq by lia. destruct (sample_speed_lt s V W n t' t d' d R U V0 W0 Li T' T L H' H) as (A & B). split; [rewrite vdist_sym; exact A|intros v; rewrite vdist_sym; exact (B v)].
Qed.

Lemma sample_reach : forall (s : core RS) V W L n t d, reachable s -> limited s V W n -> within_reach s L n -> t <> 0%Z -> sample_at s t n = Some d -> vnorm (st_trans d) <= L.
Proof.
  intros s V W L n t d R Li Re T H. destruct (sample_placed s V W n t d R Li T H) as (c & E & [(x & -> & A & _)|(max & l & o & m & r & -> & _ & P & _)]).
  - rewrite A. apply (Re _ x E). left. reflexivity.
  - destruct P as (Io & Im & _ & _ & Rr & _ & _ & A & _). rewrite A. apply vinterp_norm; [exact Rr| |]; apply (Re _ _ E); assumption.
Qed.

(** ** Along a chain of links *)
(** A point carried up a chain, and down another one. *)
Fixpoint up (ds : list sample) (v : vec3 RS) : vec3 RS :=
  match ds with [] => v | d :: ds => up ds (vadd (quatRotate (st_rot d) v) (st_trans d)) end.
Fixpoint down (dt : list sample) (v : vec3 RS) : vec3 RS :=
  match dt with [] => v | d :: dt => quatRotate (qinv (st_rot d)) (vadd (down dt v) (vneg (st_trans d))) end.

Lemma takes_mul : forall (a b : pose RS) v, takes (pose_mul a b) v = takes a (takes b v).
Proof. intros [qa ta] [qb tb] v. unfold takes. cbn. rewrite quatRotate_mul, quatRotate_add, <- vadd_assoc. reflexivity. Qed.
Lemma takes_id : forall v : vec3 RS, takes pose_id v = v.
Proof. intros v. unfold takes, pose_id. cbn [fst snd]. rewrite quatRotate_id. apply vadd_zero_r. Qed.
Lemma climb_cons : forall (d : sample) ds, climb_pose (d :: ds) = pose_mul (climb_pose ds) (pose_of d).
Proof.
  intros d ds. unfold climb_pose at 1. cbn [fold_left]. rewrite climb_pose_from, pose_mul_id_r. reflexivity.
Qed.
Lemma takes_up : forall (ds : list sample) v, takes (climb_pose ds) v = up ds v.
Proof.
  induction ds as [|d ds IH]; intros v; [exact (takes_id v)|]. rewrite climb_cons, takes_mul, IH. reflexivity.
Qed.
Lemma takes_down : forall (dt : list sample) v, Forall (fun d => qunit (st_rot d)) dt -> takes (pose_inv (climb_pose dt)) v = down dt v.
Proof.
  induction dt as [|d dt IH]; intros v F; [change (climb_pose []) with (@pose_id RS); rewrite pose_inv_id; exact (takes_id v)|].
  inversion F as [|x y U F']. subst x y. rewrite climb_cons.
  assert (Uc : unitp (climb_pose dt)).
  { clear -F'. induction F' as [|d dt U F IH]; [exact unitp_id|]. rewrite climb_cons. apply unitp_mul; [exact IH|exact U]. }
  rewrite pose_inv_mul by (exact Uc || exact U). rewrite takes_mul, (IH v F'). cbn [down]. unfold takes, pose_inv, pose_of. cbn [fst snd]. rewrite <- quatRotate_add. reflexivity.
Qed.

(** Two chains whose links differ by at most [e] in translation and [w] per metre in rotation. *)
Definition close (e w L : R) (d d' : sample) : Prop :=
  qunit (st_rot d) /\ qunit (st_rot d') /\ vdist (st_trans d) (st_trans d') <= e /\
  (forall v, vdist (quatRotate (st_rot d) v) (quatRotate (st_rot d') v) <= w * vnorm v) /\
  vnorm (st_trans d) <= L /\ vnorm (st_trans d') <= L.
Lemma rotate_norm : forall (q : quat RS) v, qunit q -> vnorm (quatRotate q v) = vnorm v.
Proof. intros q v U. rewrite vnorm_rotate, (qunit_norm q U). ring. Qed.
Lemma rotate_dist : forall (q : quat RS) v v', qunit q -> vdist (quatRotate q v) (quatRotate q v') = vdist v v'.
Proof.
  intros q v v' U. rewrite !vdist_sub. rewrite <- (rotate_norm q (vsub v v') U). f_equal.
  destruct q as [x y z s], v as [a b c], v' as [a' b' c']. unfold quatRotate, vsub, qmul, qmulv, qinv. cbn [qx qy qz qw vx vy vz]. runf. f_equal; cbn [RS scar]; ring.
Qed.
Lemma qunit_inv : forall q : quat RS, qunit q -> qunit (qinv q).
Proof. intros q U. apply unitq_qunit, unitq_inv, unitq_qunit, U. Qed.

Lemma up_close : forall e w L, 0 <= e -> 0 <= w -> 0 <= L -> forall ds ds', Forall2 (close e w L) ds ds' -> forall rho v v', vnorm v' <= rho ->
  vnorm (up ds' v') <= rho + INR (List.length ds) * L /\
  vdist (up ds v) (up ds' v') <= vdist v v' + INR (List.length ds) * (e + w * (rho + INR (List.length ds) * L)).
Proof.
  intros e w L E0 W0 L0 ds ds' F. induction F as [|d d' ds ds' (U & U' & Et & Er & Ln & Ln') F IH]; intros rho v v' B.
  { cbn [up List.length INR]. split; lra. }
  cbn [up]. assert (N1 : vnorm (vadd (quatRotate (st_rot d') v') (st_trans d')) <= rho + L).
  { eapply Rle_trans; [apply vnorm_add|]. rewrite rotate_norm by exact U'. lra. }
  assert (D1 : vdist (vadd (quatRotate (st_rot d) v) (st_trans d)) (vadd (quatRotate (st_rot d') v') (st_trans d')) <= vdist v v' + (e + w * rho)).
  { eapply Rle_trans; [apply vdist_add|]. pose proof (vdist_triangle (quatRotate (st_rot d) v) (quatRotate (st_rot d) v') (quatRotate (st_rot d') v')) as T.
    rewrite (rotate_dist _ v v' U) in T. pose proof (Er v'). nra. }
  destruct (IH (rho + L) (vadd (quatRotate (st_rot d) v) (st_trans d)) _ N1) as (A & D). 
  change (List.length (d :: ds)) with (Datatypes.S (List.length ds)). rewrite S_INR. set (k := INR (List.length ds)) in *. assert (0 <= k) by apply pos_INR.
  split; [nra|]. assert (0 <= w * L) by nra. assert (0 <= w * L * k) by nra. nra.
Qed.
Lemma down_close : forall e w L, 0 <= e -> 0 <= w -> 0 <= L -> forall dt dt', Forall2 (close e w L) dt dt' -> forall rho v v', vnorm v' <= rho ->
  vnorm (down dt' v') <= rho + INR (List.length dt) * L /\
  vdist (down dt v) (down dt' v') <= vdist v v' + INR (List.length dt) * (e + w * (rho + INR (List.length dt) * L)).
Proof.
  intros e w L E0 W0 L0 dt dt' F. induction F as [|d d' dt dt' (U & U' & Et & Er & Ln & Ln') F IH]; intros rho v v' B.
  { cbn [down List.length INR]. split; lra. }
  cbn [down]. destruct (IH rho v v' B) as (A & D). change (List.length (d :: dt)) with (Datatypes.S (List.length dt)). rewrite S_INR. set (k := INR (List.length dt)) in *. assert (0 <= k) by apply pos_INR.
  set (x := down dt v) in *. set (x' := down dt' v') in *. set (y := vadd x (vneg (st_trans d))). set (y' := vadd x' (vneg (st_trans d'))).
  assert (N1 : vnorm y' <= rho + k * L + L).
  { eapply Rle_trans; [apply vnorm_add|]. rewrite vnorm_neg. lra. }
  assert (D1 : vdist y y' <= vdist x x' + e).
  { eapply Rle_trans; [apply vdist_add|]. rewrite vdist_neg. lra. }
  assert (Rr : vdist (quatRotate (qinv (st_rot d)) y') (quatRotate (qinv (st_rot d')) y') <= w * vnorm y').
  { rewrite <- (rotate_dist (st_rot d)) by exact U. rewrite quatRotate_inv_r by (apply unitq_qunit; exact U).
    set (z := quatRotate (qinv (st_rot d')) y'). assert (Ez : y' = quatRotate (st_rot d') z) by (unfold z; rewrite quatRotate_inv_r by (apply unitq_qunit; exact U'); reflexivity).
    assert (Nz : vnorm z = vnorm y') by (unfold z; apply rotate_norm, qunit_inv, U'). rewrite <- Nz. rewrite Ez. rewrite vdist_sym. apply Er. }
  split.
  { rewrite rotate_norm by (apply qunit_inv, U'). lra. }
  pose proof (vdist_triangle (quatRotate (qinv (st_rot d)) y) (quatRotate (qinv (st_rot d)) y') (quatRotate (qinv (st_rot d')) y')) as T.
  rewrite (rotate_dist _ y y' (qunit_inv _ U)) in T. 
  assert (M : w * vnorm y' <= w * (rho + k * L + L)) by (apply Rmult_le_compat_l; assumption).
  assert (0 <= w * L) by nra. assert (0 <= w * L * k) by nra. nra.
Qed.

(** ** The lookup *)
Lemma link_child : forall (s : core RS) t n d, reachable s -> link s t n = Some d -> st_child d = n.
Proof. intros s t n d R H. apply (link_parent s t n d (reachable_wf s R) H). Qed.

Lemma climbs_close : forall (s : core RS) V W L t t' n ds ds' c c', reachable s -> unit_samples s -> 0 <= V -> 0 <= W ->
  t <> 0%Z -> t' <> 0%Z -> climbs s t n ds c -> climbs s t' n ds' c' -> passed ds = passed ds' ->
  (forall m, In m (passed ds) -> limited s V W m /\ within_reach s L m) ->
  Forall2 (close (V * secs (Z.abs (t - t'))) (W * secs (Z.abs (t - t'))) L) ds ds'.
Proof.
  intros s V W L t t' n ds ds' c c' R U V0 W0 T T' C. revert ds' c'. induction C as [n|n d ds c Ld C IH]; intros ds' c' C' P H.
  { destruct ds' as [|d' ds']; [constructor|discriminate P]. }
  destruct C' as [n|n d' ds' c' Ld' C']; [discriminate P|]. cbn [passed map] in P. injection P as P1 P2.
  assert (Hn : limited s V W n /\ within_reach s L n).
  { apply H. rewrite <- (link_child s t n d R Ld). left. reflexivity. }
  destruct Hn as (Li & Re). pose proof (link_sample _ _ _ _ Ld) as Sd. pose proof (link_sample _ _ _ _ Ld') as Sd'.
  destruct (sample_speed s V W n t t' d d' R U V0 W0 Li T T' Sd Sd') as (A & B).
  constructor.
  - split; [exact (link_unit s t n d U Ld)|]. split; [exact (link_unit s t' n d' U Ld')|]. split; [exact A|]. split; [exact B|].
    split; [exact (sample_reach s V W L n t d R Li Re T Sd)|exact (sample_reach s V W L n t' d' R Li Re T' Sd')].
  - assert (Ef : st_frame d = st_frame d').
    { destruct (sample_placed s V W n t d R Li T Sd) as (h & E & Q). destruct (sample_placed s V W n t' d' R Li T' Sd') as (h' & E' & Q'). rewrite E in E'. injection E' as <-.
      destruct (Li _ E) as (One & _).
      assert (G : exists x, In x (samples h) /\ st_frame d = st_frame x).
      { destruct Q as [(x & -> & _ & _ & F)|(mx & l & o & m & r & -> & _ & (Io & _) & F)]; [exists x|exists o]; split; try exact F; [left; reflexivity|exact Io]. }
      assert (G' : exists x, In x (samples h) /\ st_frame d' = st_frame x).
      { destruct Q' as [(x & -> & _ & _ & F)|(mx & l & o & m & r & -> & _ & (Io & _) & F)]; [exists x|exists o]; split; try exact F; [left; reflexivity|exact Io]. }
      destruct G as (x & Ix & ->). destruct G' as (x' & Ix' & ->). exact (One x x' Ix Ix'). }
    rewrite <- Ef in C'. apply (IH ds' c' C' P2). intros m Hm. apply H. right. exact Hm.
Qed.

Theorem lookup_speed : forall (s : core RS) tgt src q q' m m' c c' ds dt ds' dt' V W L rho v,
  reachable s -> unit_samples s -> tgt <> src -> 0 <= V -> 0 <= W -> 0 <= L ->
  lookupTransform s tgt src q = Ok m -> lookupTransform s tgt src q' = Ok m' ->
  let t := tm_stamp m in let t' := tm_stamp m' in
  t <> 0%Z -> t' <> 0%Z -> depth_ok s t src -> depth_ok s t tgt -> depth_ok s t' src -> depth_ok s t' tgt ->
  climbs s t src ds c -> climbs s t tgt dt c -> climbs s t' src ds' c' -> climbs s t' tgt dt' c' ->
  passed ds = passed ds' -> passed dt = passed dt' ->
  (forall n, In n (passed ds ++ passed dt) -> limited s V W n /\ within_reach s L n) ->
  vnorm v <= rho ->
  let k := INR (List.length ds + List.length dt) in
  vdist (takes (msg_pose m) v) (takes (msg_pose m') v) <= k * (V + W * (rho + k * L)) * secs (Z.abs (t - t')).
Proof.
  intros s tgt src q q' m m' c c' ds dt ds' dt' V W L rho v R U Ne V0 W0 L0 Lk Lk' t t' T T' Dp1 Dp2 Dp1' Dp2' C1 C2 C1' C2' P1 P2 H Hv k.
  rewrite (lookup_pose s tgt src q m c ds dt R U Ne Lk Dp1 Dp2 C1 C2), (lookup_pose s tgt src q' m' c' ds' dt' R U Ne Lk' Dp1' Dp2' C1' C2').
  pose proof (climbs_close s V W L t t' src ds ds' c c' R U V0 W0 T T' C1 C1' P1 (fun n I => H n (in_or_app _ _ _ (or_introl I)))) as F1.
  pose proof (climbs_close s V W L t t' tgt dt dt' c c' R U V0 W0 T T' C2 C2' P2 (fun n I => H n (in_or_app _ _ _ (or_intror I)))) as F2.
  rewrite !takes_mul, !takes_up.
  assert (Un : forall e w l l', Forall2 (close e w L) l l' -> Forall (fun d => qunit (st_rot d)) l /\ Forall (fun d => qunit (st_rot d)) l').
  { intros e w l l' F. induction F as [|d d' l l' (A & B & _) F (IA & IB)]; split; constructor; assumption. }
  rewrite (takes_down dt) by (apply (Un _ _ _ _ F2)). rewrite (takes_down dt') by (apply (Un _ _ _ _ F2)).
  set (dl := secs (Z.abs (t - t'))) in *. assert (D0 : 0 <= dl). { unfold dl, secs. assert (0 <= IZR (Z.abs (t - t'))) by (apply (IZR_le 0); lia). lra. }
  assert (E0 : 0 <= V * dl) by nra. assert (Wd : 0 <= W * dl) by nra.
  destruct (up_close _ _ L E0 Wd L0 ds ds' F1 rho v v Hv) as (A & B). rewrite vdist_self in B.
  destruct (down_close _ _ L E0 Wd L0 dt dt' F2 _ (up ds v) (up ds' v) A) as (_ & D).
  eapply Rle_trans; [exact D|]. unfold k. rewrite plus_INR. set (a := INR (List.length ds)) in *. set (b := INR (List.length dt)) in *.
  assert (0 <= a) by apply pos_INR. assert (0 <= b) by apply pos_INR.
  assert (0 <= W * dl * L) by nra. assert (0 <= a * b) by nra. assert (0 <= W * dl * L * (a * b)) by nra.
  eapply Rle_trans; [apply Rplus_le_compat_r; exact B|].
  replace ((a + b) * (V + W * (rho + (a + b) * L)) * dl) with (a * (V * dl + W * dl * (rho + a * L)) + b * (V * dl + W * dl * (rho + a * L + b * L)) + W * dl * L * (a * b)) by ring. lra.
Qed.

(** ** The orientation of a lookup *)
Ltac rf := cbn; cbn [RS scar] in *; match goal with |- @eq _ ?a ?b => change (@eq R a b) end; field.
Definition bare (d : sample) : sample := {| st_rot := st_rot d; st_trans := vzero; st_stamp := st_stamp d; st_frame := st_frame d; st_child := st_child d |}.
Lemma up_bare : forall ds v, up (map bare ds) v = quatRotate (fst (climb_pose ds)) v.
Proof.
  induction ds as [|d ds IH]; intros v; [symmetry; apply quatRotate_id|]. rewrite climb_cons. cbn [map up bare st_rot st_trans pose_mul fst pose_of]. rewrite vadd_zero_r, IH, quatRotate_mul. reflexivity.
Qed.
Lemma vneg_zero : vneg (vzero : vec3 RS) = vzero.
Proof. unfold vneg, vzero. cbn [vx vy vz]. f_equal; rf. Qed.
Lemma down_bare : forall dt v, down (map bare dt) v = quatRotate (qinv (fst (climb_pose dt))) v.
Proof.
  induction dt as [|d dt IH]; intros v.
  - cbn [map down]. change (fst (climb_pose [])) with (@qidentity RS). rewrite <- (quatRotate_id v) at 1. f_equal. unfold qinv, qidentity. cbn [qx qy qz qw]. f_equal; rf.
  - rewrite climb_cons. cbn [map down bare st_rot st_trans pose_mul fst pose_of]. rewrite vneg_zero, vadd_zero_r, IH, qinv_mul, quatRotate_mul. reflexivity.
Qed.
Lemma close_bare : forall e w L ds ds', Forall2 (close e w L) ds ds' -> Forall2 (close 0 w 0) (map bare ds) (map bare ds').
Proof.
  intros e w L ds ds' F. induction F as [|d d' ds ds' (U & U' & _ & Er & _) F IH]; [constructor|]. constructor; [|exact IH].
  cbn [bare st_rot st_trans]. split; [exact U|]. split; [exact U'|]. cbn [st_trans]. split; [rewrite vdist_self; apply Rle_refl|]. split; [exact Er|].
  split; cbn [bare st_trans]; rewrite vnorm_zero; apply Rle_refl.
Qed.

Theorem lookup_turns : forall (s : core RS) tgt src q q' m m' c c' ds dt ds' dt' V W v,
  reachable s -> unit_samples s -> tgt <> src -> 0 <= V -> 0 <= W ->
  lookupTransform s tgt src q = Ok m -> lookupTransform s tgt src q' = Ok m' ->
  let t := tm_stamp m in let t' := tm_stamp m' in
  t <> 0%Z -> t' <> 0%Z -> depth_ok s t src -> depth_ok s t tgt -> depth_ok s t' src -> depth_ok s t' tgt ->
  climbs s t src ds c -> climbs s t tgt dt c -> climbs s t' src ds' c' -> climbs s t' tgt dt' c' ->
  passed ds = passed ds' -> passed dt = passed dt' ->
  (forall n, In n (passed ds ++ passed dt) -> limited s V W n /\ exists L, within_reach s L n) ->
  vdist (quatRotate (tm_rot m) v) (quatRotate (tm_rot m') v) <=
    INR (List.length ds + List.length dt) * W * secs (Z.abs (t - t')) * vnorm v.
Proof.
  intros s tgt src q q' m m' c c' ds dt ds' dt' V W v R U Ne V0 W0 Lk Lk' t t' T T' Dp1 Dp2 Dp1' Dp2' C1 C2 C1' C2' P1 P2 H.
  pose proof (lookup_pose s tgt src q m c ds dt R U Ne Lk Dp1 Dp2 C1 C2) as E. pose proof (lookup_pose s tgt src q' m' c' ds' dt' R U Ne Lk' Dp1' Dp2' C1' C2') as E'.
  assert (Eq : tm_rot m = qmul (qinv (fst (climb_pose dt))) (fst (climb_pose ds))) by exact (f_equal fst E).
  assert (Eq' : tm_rot m' = qmul (qinv (fst (climb_pose dt'))) (fst (climb_pose ds'))) by exact (f_equal fst E').
  rewrite Eq, Eq', !quatRotate_mul, <- !up_bare, <- !down_bare.
  assert (Bd : exists L, forall n, In n (passed ds ++ passed dt) -> within_reach s L n).
  { clear -H. induction (passed ds ++ passed dt) as [|n l IH]; [exists 0; intros n []|].
    destruct IH as (L & B); [intros n' I; apply H; right; exact I|]. destruct (H n (or_introl eq_refl)) as (_ & L' & B').
    exists (Rmax L L'). intros n' [<-|I] cc x Ec Ix.
    - exact (Rle_trans _ _ _ (B' cc x Ec Ix) (Rmax_r _ _)).
    - exact (Rle_trans _ _ _ (B n' I cc x Ec Ix) (Rmax_l _ _)). }
  destruct Bd as (L & Bd).
  pose proof (climbs_close s V W L t t' src ds ds' c c' R U V0 W0 T T' C1 C1' P1 (fun n I => conj (proj1 (H n (in_or_app _ _ _ (or_introl I)))) (Bd n (in_or_app _ _ _ (or_introl I))))) as F1.
  pose proof (climbs_close s V W L t t' tgt dt dt' c c' R U V0 W0 T T' C2 C2' P2 (fun n I => conj (proj1 (H n (in_or_app _ _ _ (or_intror I)))) (Bd n (in_or_app _ _ _ (or_intror I))))) as F2.
  apply close_bare in F1. apply close_bare in F2.
  set (dl := secs (Z.abs (t - t'))) in *. assert (D0 : 0 <= dl). { unfold dl, secs. assert (0 <= IZR (Z.abs (t - t'))) by (apply (IZR_le 0); lia). lra. }
  assert (Wd : 0 <= W * dl) by nra.
  destruct (up_close 0 _ 0 (Rle_refl 0) Wd (Rle_refl 0) _ _ F1 (vnorm v) v v (Rle_refl _)) as (A & B). rewrite vdist_self in B.
  destruct (down_close 0 _ 0 (Rle_refl 0) Wd (Rle_refl 0) _ _ F2 _ (up (map bare ds) v) (up (map bare ds') v) A) as (_ & D).
  rewrite !map_length in *. eapply Rle_trans; [exact D|]. rewrite plus_INR. set (a := INR (List.length ds)) in *. set (b := INR (List.length dt)) in *.
  eapply Rle_trans; [apply Rplus_le_compat_r; exact B|]. right. ring.
Qed.
