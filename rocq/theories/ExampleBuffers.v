(** * Concrete buffers used to show that hypotheses of the theorems are met *)
From Coq Require Import ZArith Bool List String Lia Arith Floats.SpecFloat.
From Verif Require Import RosTime Scalar LinearMath Cache SpecCache BufferCore SpecCore Instances
  CoreInv Naturality CoreSet WalkSpec Bridge.
Import ListNotations.
Open Scope Z_scope.

(** Equations between closed terms, decided by the kernel's virtual machine. *)
Ltac vmr := match goal with |- @eq ?T ?a ?b => exact (@eq_refl T b <: @eq T a b) end.
Lemma ok_by : forall {A} (r : res A), match r with Ok _ => true | _ => false end = true -> exists m, r = Ok m.
Proof. intros A [m| |] H; try discriminate. eauto. Qed.
Lemma throw_by : forall {A} (r : res A) cl, match r with Throw c _ => match c, cl with
    | LookupException, LookupException | ConnectivityException, ConnectivityException
    | ExtrapolationException, ExtrapolationException | InvalidArgumentException, InvalidArgumentException
    | RuntimeError, RuntimeError => true | _, _ => false end | _ => false end = true -> exists e, r = Throw cl e.
Proof. intros A [m|c e|] cl H; try discriminate. destruct c, cl; try discriminate; eauto. Qed.
Lemma loop_by : forall {A} (r : res A), match r with Throw LookupException (ELoop _) => true | _ => false end = true ->
  exists str, r = Throw LookupException (ELoop str).
Proof. intros A [m|[] []|] H; try discriminate. eauto. Qed.

(** ** deciding the side conditions on concrete states *)
Section D.
Context {S : Scalar}.
Implicit Types (s : core S).

Fixpoint top_within (fuel : nat) s (t : time) (n : string) : bool :=
  match link s t n with
  | None => true
  | Some d => match fuel with O => false | Datatypes.S f => top_within f s t (st_frame d) end
  end.
Lemma top_within_len : forall fuel s t n, top_within fuel s t n = true -> forall ds m, climbs s t n ds m -> (List.length ds <= fuel)%nat.
Proof.
  induction fuel as [|f IH]; intros s t n H ds m C; destruct C as [n|n d ds m E C]; cbn in *; try lia.
  - rewrite E in H. discriminate.
  - rewrite E in H. apply IH with (ds := ds) (m := m) in H; [lia|assumption].
Qed.
Lemma depth_by : forall fuel s t n, top_within fuel s t n = true -> (fuel <= MAX_GRAPH_DEPTH)%nat -> depth_ok s t n.
Proof. intros fuel s t n H L ds m C. pose proof (top_within_len _ _ _ _ H _ _ C). lia. Qed.

Definition early_b s : bool :=
  forallb (fun o => match o with Some c => forallb (fun x => st_stamp x <? dur_bound) (samples c) | None => true end) (c_frames s).
Lemma early_by : forall s, early_b s = true -> early s.
Proof.
  intros s H n c x Hc Hx. unfold hist in Hc. destruct (assoc n (c_ids s)) as [[|i]|]; try discriminate.
  destruct (getFrame s (Datatypes.S i)) as [c0|] eqn:G; [|discriminate]. cbn in Hc. inversion Hc; subst.
  rewrite samples_map in Hx. apply in_map_iff in Hx as (y & <- & Hy). cbn.
  unfold early_b in H. rewrite forallb_forall in H. unfold getFrame in G.
  destruct (nth_error (c_frames s) (Datatypes.S i)) as [o|] eqn:E; [|discriminate]. subst o. apply nth_error_In in E.
  specialize (H _ E). cbn in H. rewrite forallb_forall in H. specialize (H y Hy). apply Z.ltb_lt. assumption.
Qed.

Fixpoint climb_list (fuel : nat) s (t : time) (n : string) : list (storage S string) :=
  match fuel with
  | O => []
  | Datatypes.S f => match link s t n with None => [] | Some d => d :: climb_list f s t (st_frame d) end
  end.
Lemma climb_list_ok : forall fuel s t n, exists m, climbs s t n (climb_list fuel s t n) m.
Proof.
  induction fuel as [|f IH]; intros s t n; cbn; [exists n; constructor|].
  destruct (link s t n) as [d|] eqn:E; [|exists n; constructor]. destruct (IH s t (st_frame d)) as [m H]. exists m. econstructor; eassumption.
Qed.
Lemma last_default : forall {A} (l : list A) x d e, last (x :: l) d = last (x :: l) e.
Proof. induction l as [|y l IH]; intros x d e; [reflexivity|]. change (last (y :: l) d = last (y :: l) e). apply IH. Qed.
Lemma climb_to : forall s t n ds m, ds = climb_list (List.length ds) s t n -> last (map (@st_frame S string) ds) n = m -> climbs s t n ds m.
Proof.
  intros s t n ds. revert n. induction ds as [|d ds IH]; intros n m H L; [cbn in L; subst; constructor|].
  cbn [List.length climb_list] in H. destruct (link s t n) as [d'|] eqn:E; [|discriminate]. injection H as Hd Hl. subst d'.
  econstructor; [eassumption|]. apply IH; [assumption|]. cbn [map] in L.
  destruct ds as [|d2 ds]; [exact L|]. rewrite <- L. cbn [map]. symmetry.
  change (last (st_frame d2 :: map (@st_frame S string) ds) n = last (st_frame d2 :: map (@st_frame S string) ds) (st_frame d)). apply last_default.
Qed.
Lemma never_by : forall fuel s t n m,
  (top_within fuel s t n && negb (existsb (String.eqb m) (n :: map (@st_frame S string) (climb_list fuel s t n))))%bool = true ->
  forall ds, ~ climbs s t n ds m.
Proof.
  induction fuel as [|f IH]; intros s t n m H ds C; apply andb_prop in H as [H1 H2].
  - cbn in H1. destruct C as [n|n d ds m E C]; [cbn in H2; rewrite String.eqb_refl in H2; discriminate|].
    rewrite E in H1. discriminate.
  - destruct C as [n|n d ds m E C]; [cbn in H2; rewrite String.eqb_refl in H2; discriminate|].
    cbn [top_within climb_list] in *. rewrite E in *. cbn [map existsb] in H2. apply (IH s t (st_frame d) m) with (ds := ds); [|assumption].
    rewrite H1. cbn [map existsb andb]. destruct (String.eqb m n); [discriminate|]. exact H2.
Qed.
End D.

(** ** a small robot, in binary64 *)
Definition D64 : Scalar := F64 libm0.
Definition v64 (x y z : Z) : vec3 D64 := @V3 D64 (f64_of_Z x) (f64_of_Z y) (f64_of_Z z).
(** rotation by 180 degrees about z: (0,0,1,0); identity: (0,0,0,1) *)
Definition id64 : quat D64 := @qidentity D64.
Definition zpi64 : quat D64 := @Q4 D64 (f64_of_Z 0) (f64_of_Z 0) (f64_of_Z 1) (f64_of_Z 0).
Definition msg (parent child : string) (t : time) (v : vec3 D64) (q : quat D64) : tmsg D64 :=
  {| tm_stamp := t; tm_frame := parent; tm_child := child; tm_trans := v; tm_rot := q |}.
Definition dyn (parent child : string) (t : time) (v : vec3 D64) (q : quat D64) : core_op D64 :=
  OSet (msg parent child t v q) "me" false.
Definition sta (parent child : string) (t : time) (v : vec3 D64) (q : quat D64) : core_op D64 :=
  OSet (msg parent child t v q) "me" true.

Open Scope string_scope.
(** world -static-> map -> odom -> base, map -> beacon; and a separate tree x -static-> y *)
Definition robot_ops : list (core_op D64) :=
  [ dyn "odom" "base" 12 (v64 1 0 0) id64;
    sta "world" "map" 0 (v64 0 5 0) zpi64;
    dyn "map" "odom" 10 (v64 0 0 0) id64;
    dyn "map" "odom" 20 (v64 10 0 0) id64;
    dyn "map" "beacon" 25 (v64 0 3 0) zpi64;
    dyn "map" "beacon" 5 (v64 0 1 0) zpi64;
    dyn "/odom" "/base" 18 (v64 3 0 0) id64;
    sta "x" "y" 0 (v64 1 1 1) id64 ].
Definition robot : core D64 := run (init_core 100) robot_ops.

Lemma ops_ok_by : forall ops : list (core_op D64),
  forallb (fun o => match o with OSet m _ _ => valid_timeb (tm_stamp m) | OClear => true end) ops = true -> Forall op_ok ops.
Proof.
  intros ops H. apply Forall_forall. intros o Ho. rewrite forallb_forall in H. specialize (H o Ho). destruct o; [|exact I].
  unfold valid_timeb in H. apply andb_prop in H as [H1 H2]. split; [apply Z.leb_le|apply Z.ltb_lt]; assumption.
Qed.
Lemma reach_by : forall ct ops, ((0 <=? ct) && (ct <? dur_bound))%Z = true ->
  forallb (fun o : core_op D64 => match o with OSet m _ _ => valid_timeb (tm_stamp m) | OClear => true end) ops = true ->
  reachable (run (init_core ct) ops).
Proof.
  intros ct ops H H'. apply andb_prop in H as [H1 H2]. exists ct, ops. split; [split; [apply Z.leb_le|apply Z.ltb_lt]; assumption|].
  split; [apply ops_ok_by; assumption|reflexivity].
Qed.
Lemma robot_reachable : reachable robot.
Proof. apply reach_by; reflexivity. Qed.
Lemma robot_early : early robot.
Proof. apply early_by. vm_compute. reflexivity. Qed.
Ltac known_tac := split; [vm_compute; reflexivity|discriminate].
Ltac plain_tac := split; [discriminate|reflexivity].
Ltac depth_tac := apply (depth_by 10); [vm_compute; reflexivity|vm_compute; lia].

(** two frames that are each other's parent *)
Definition cycle_ops : list (core_op D64) :=
  [ dyn "a" "b" 10 (v64 1 0 0) id64; dyn "b" "a" 10 (v64 1 0 0) id64; dyn "r" "c" 10 (v64 1 0 0) id64 ].
Definition cycle : core D64 := run (init_core 100) cycle_ops.
Lemma cycle_reachable : reachable cycle.
Proof. apply reach_by; reflexivity. Qed.
Lemma endless_by : forall s t n d ds, @climbs D64 s t n (d :: ds) n -> endless s t n.
Proof.
  intros s t n d ds H k.
  assert (G : forall k, exists es m, climbs s t n es m /\ (k <= List.length es)%nat).
  { induction k0 as [|k0 (es & m & He & L)]; [exists [], n; split; [constructor|cbn; lia]|].
    exists (((d :: ds) ++ es)%list), m. split; [eapply climbs_app; eassumption|]. rewrite app_length. cbn. lia. }
  destruct (G k) as (es & m & He & L). clear H G. revert n es m He L.
  induction k as [|k IH]; intros n es m He L; [exists [], n; split; [constructor|reflexivity]|].
  destruct He as [n|n e es m E He]; [cbn in L; lia|]. destruct (IH _ _ _ He) as (fs & q & Hf & Lf); [cbn in L; lia|].
  exists (e :: fs), q. split; [econstructor; eassumption|cbn; lia].
Qed.

(** Depth at every time at once: a rank that decreases along every stored parent edge. *)
Definition edges (s : core D64) : list (string * string) :=
  flat_map (fun n => match hist s n with Some c => map (fun x => (n, st_frame x)) (samples c) | None => [] end) (map fst (c_ids s)).
Lemma assoc_fst : forall n l i, assoc n l = Some i -> In n (map fst l).
Proof.
  intros n l i. induction l as [|[k v] l IH]; cbn; [discriminate|]. destruct (String.eqb n k) eqn:E; [|auto].
  apply String.eqb_eq in E. auto.
Qed.
Lemma link_edge : forall (s : core D64) t n d, link s t n = Some d -> In (n, st_frame d) (edges s).
Proof.
  intros s t n d H. unfold link, sample_at in H. destruct (hist s n) as [c|] eqn:Eh; [|discriminate].
  destruct (getData String.eqb c t None) as [[[x|] e]| |] eqn:E; try discriminate.
  destruct (String.eqb (st_frame x) NO_PARENT); [discriminate|]. inversion H; subst.
  destruct (getData_in _ _ _ _ _ _ E) as (y & Hy & Ey & _). unfold edges. apply in_flat_map. exists n.
  split; [unfold hist in Eh; destruct (assoc n (c_ids s)) eqn:Ea; [eapply assoc_fst; eassumption|discriminate]|].
  rewrite Eh. apply in_map_iff. exists y. rewrite Ey. auto.
Qed.
Lemma depth_rank : forall (rank : string -> nat) (s : core D64) t n,
  forallb (fun e => (rank (snd e) <? rank (fst e))%nat) (edges s) = true -> (rank n <= MAX_GRAPH_DEPTH)%nat -> depth_ok s t n.
Proof.
  intros rank s t n H L ds m C. assert (G : (List.length ds <= rank n)%nat); [|lia]. clear L.
  induction C as [n|n d ds m E C IH]; cbn; [lia|]. apply link_edge in E. rewrite forallb_forall in H. apply H in E.
  cbn in E. apply Nat.ltb_lt in E. lia.
Qed.
Definition robot_rank (n : string) : nat :=
  if String.eqb n "base" then 3 else if String.eqb n "odom" then 2 else if String.eqb n "map" then 1
  else if String.eqb n "beacon" then 2 else if String.eqb n "y" then 1 else 0.
Lemma robot_depth : forall t n, depth_ok robot t n.
Proof.
  intros t n. apply (depth_rank robot_rank); [vm_compute; reflexivity|]. unfold robot_rank.
  repeat destruct (String.eqb _ _); vm_compute; lia.
Qed.
Lemma cycle_edges : edges cycle = [("c", "r"); ("a", "b"); ("b", "a")].
Proof. vmr. Qed.
