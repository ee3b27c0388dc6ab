(** * Proofs about calls from several threads (C82) *)
From Coq Require Import ZArith Bool List String Arith Lia.
From Verif Require Import RosTime Scalar LinearMath Cache BufferCore Introspection SpecCore CoreThreads SpecCoreThreads.
Import ListNotations.
Open Scope Z_scope.

Section P.
Context {S : Scalar}.
Notation core := (core S).
Implicit Types (s : core) (b : scope S) (p : prog S) (c : call S) (x : list (happening S)).

(** ** A lock scope executed in one go *)
Fixpoint run_scope b s : core * prog S :=
  match b with
  | Leave p => (s, p)
  | Access g k => run_scope (k s) (g s)
  end.

Definition grow s s' : Prop := forall n id, assoc n (c_ids s) = Some id -> assoc n (c_ids s') = Some id.
Lemma grow_refl : forall s, grow s s.
Proof. intros s n id H. exact H. Qed.
Lemma grow_trans : forall s1 s2 s3, grow s1 s2 -> grow s2 s3 -> grow s1 s3.
Proof. intros s1 s2 s3 A B n id H. apply B, A, H. Qed.
Lemma grow_same : forall s s', c_ids s' = c_ids s -> grow s s'.
Proof. intros s s' E n id H. rewrite E. exact H. Qed.
Fixpoint growing b : Prop :=
  match b with
  | Leave _ => True
  | Access g k => forall s, grow s (g s) /\ growing (k s)
  end.
Lemma insert_grow : forall name s, grow s (insert_name name s).
Proof.
  intros name s n id H. unfold insert_name, lookupOrInsertFrameNumber. destruct (assoc name (c_ids s)) eqn:E; [exact H|].
  cbn [fst c_ids assoc]. destruct (String.eqb n name) eqn:En; [|exact H]. apply String.eqb_eq in En. subst. congruence.
Qed.
Lemma read_growing : forall k, (forall s, growing (k s)) -> growing (read k).
Proof. intros k H s. split; [apply grow_refl|apply H]. Qed.
Lemma write_growing : forall g b, (forall s, grow s (g s)) -> growing b -> growing (write g b).
Proof. intros g b G H s. split; [apply G|exact H]. Qed.

(** ** Frame numbers are in range *)
Definition in_range s : Prop := forall n id, assoc n (c_ids s) = Some id -> (id < List.length (c_frames s))%nat.
Lemma in_range_init : forall ct, in_range (init_core ct : core).
Proof. intros ct n id H. cbn [init_core c_ids c_frames assoc List.length] in *. destruct (String.eqb n NO_PARENT); [injection H as <-; lia|discriminate]. Qed.
Lemma list_set_length : forall A (l : list A) i y, List.length (list_set l i y) = List.length l.
Proof. induction l as [|z l IH]; intros [|i] y; cbn; auto. Qed.
Lemma list_set_nth : forall A (l : list A) i y, (i < List.length l)%nat -> nth_error (list_set l i y) i = Some y.
Proof. induction l as [|z l IH]; intros [|i] y H; cbn in *; try lia; [reflexivity|]. apply IH. lia. Qed.
Lemma insert_range : forall s name, in_range s -> in_range (insert_name name s).
Proof.
  intros s name H n id. unfold insert_name, lookupOrInsertFrameNumber. destruct (assoc name (c_ids s)) eqn:E; cbn [fst c_ids c_frames]; [apply H|].
  rewrite app_length. cbn [assoc List.length]. destruct (String.eqb n name); intros Ha; [injection Ha as <-; lia|]. apply H in Ha. lia.
Qed.
Lemma number_range : forall s name, in_range s -> (name_number s name < List.length (c_frames (insert_name name s)))%nat.
Proof.
  intros s name H. unfold name_number, insert_name, lookupOrInsertFrameNumber. destruct (assoc name (c_ids s)) eqn:E; cbn [fst snd c_frames]; [apply (H _ _ E)|].
  rewrite app_length. cbn [List.length]. lia.
Qed.
Lemma set_range : forall s i (d : cache S nat), in_range s -> in_range (setFrame s i d).
Proof. intros s i d H n id Ha. unfold setFrame. cbn [c_frames]. rewrite list_set_length. apply (H n id Ha). Qed.
Lemma insert_getFrame : forall s name i, (i < List.length (c_frames s))%nat -> getFrame (insert_name name s) i = getFrame s i.
Proof.
  intros s name i H. unfold insert_name, lookupOrInsertFrameNumber, getFrame. destruct (assoc name (c_ids s)); cbn [fst c_frames]; [reflexivity|].
  rewrite nth_error_app1 by exact H. reflexivity.
Qed.
Lemma setTransform_steps : forall s m0 au st, in_range s ->
  setTransform s m0 au st =
  let m := strip_msg m0 in
  if setTransform_error m then (s, Ok false) else
  let s1 := insert_name (tm_child m) s in let child := name_number s (tm_child m) in
  let s2 := allocate child st s1 in
  let s3 := insert_name (tm_frame m) s2 in
  let d := mk_storage m (name_number s2 (tm_frame m)) child in
  let s4 := insert_into child d s3 in
  match insert_result child d s3 with
  | Ok Inserted => (setAuthority s4 child au, Ok true)
  | Ok (Rejected _) => (s4, Ok false)
  | Throw cl e => (s4, Throw cl e)
  | UB => (s4, UB)
  end.
Proof.
  intros s m0 au st R. unfold setTransform. cbv zeta. set (m := strip_msg m0). destruct (setTransform_error m); [reflexivity|].
  pose proof (number_range s (tm_child m) R) as Hn. pose proof (insert_range s (tm_child m) R) as R1.
  unfold insert_name, name_number in *. destruct (lookupOrInsertFrameNumber s (tm_child m)) as [s1 child]. cbn [fst snd] in *.
  set (c := match getFrame s1 child with Some c => c | None => new_cache s1 st end).
  assert (E : match getFrame s1 child with Some c => (s1, c) | None => (setFrame s1 child (new_cache s1 st), new_cache s1 st) end = (allocate child st s1, c)).
  { unfold c, allocate. destruct (getFrame s1 child); reflexivity. }
  rewrite E. assert (G : getFrame (allocate child st s1) child = Some c).
  { unfold c, allocate. destruct (getFrame s1 child) eqn:Eg; [exact Eg|]. unfold getFrame, setFrame. cbn [c_frames]. rewrite list_set_nth by exact Hn. reflexivity. }
  assert (L : (child < List.length (c_frames (allocate child st s1)))%nat).
  { unfold allocate. destruct (getFrame s1 child); [exact Hn|]. unfold setFrame. cbn [c_frames]. rewrite list_set_length. exact Hn. }
  pose proof (insert_getFrame (allocate child st s1) (tm_frame m) child L) as G3. rewrite G in G3. unfold insert_name in G3.
  destruct (lookupOrInsertFrameNumber (allocate child st s1) (tm_frame m)) as [s3 parent]. cbn [fst snd] in *.
  unfold insert_into, insert_result. rewrite G3. destruct (insertData c (mk_storage m parent child)) as [c' r]. reflexivity.
Qed.

(** clear, frame by frame *)
Lemma list_set_app : forall A (l : list A) y l' z, list_set (l ++ y :: l') (List.length l) z = l ++ z :: l'.
Proof. induction l as [|w l IH]; intros; cbn; [reflexivity|]. rewrite IH. reflexivity. Qed.
Lemma clear_from : forall post s pre, c_frames s = pre ++ post ->
  run_scope (clear_code_from (List.length pre) (List.length post)) s =
  ({| c_frames := pre ++ map (option_map clearList) post; c_ids := c_ids s; c_rev := c_rev s; c_auth := c_auth s; c_cache_time := c_cache_time s |},
   Return IsCleared).
Proof.
  induction post as [|o post IH]; intros s pre E.
  - cbn. f_equal. destruct s. cbn in *. congruence.
  - cbn [List.length clear_code_from run_scope write map].
    assert (N : nth_error (c_frames s) (List.length pre) = Some o) by (rewrite E, nth_error_app2, Nat.sub_diag by lia; reflexivity).
    replace (Datatypes.S (List.length pre)) with (List.length (pre ++ [option_map clearList o])) by (rewrite app_length; cbn; lia).
    rewrite (IH (clear_frame (List.length pre) s) (pre ++ [option_map clearList o])).
    + rewrite <- app_assoc. cbn [app]. unfold clear_frame, getFrame. rewrite N. destruct o; reflexivity.
    + rewrite <- app_assoc. cbn [app]. unfold clear_frame, getFrame. rewrite N. destruct o as [d|]; cbn [option_map]; [|exact E].
      unfold setFrame. cbn [c_frames]. rewrite E. apply list_set_app.
Qed.
Lemma clear_growing : forall n i, growing (clear_code_from i n).
Proof.
  induction n as [|n IH]; intros i; [exact I|]. cbn [clear_code_from]. apply write_growing; [|apply IH].
  intros s. apply grow_same. unfold clear_frame. destruct (getFrame s i); reflexivity.
Qed.

(** ** Every call but the fixed-frame lookup is one lock scope *)
Lemma lookup_scope : forall tg sr t k, exists b, lookup_code tg sr t k = Acquire b /\ growing b /\
  forall s, run_scope b s = (s, k (lookupTransform s tg sr t)).
Proof.
  intros tg sr t k. unfold lookup_code. eexists. split; [reflexivity|]. unfold lookupTransform. split.
  - destruct (String.eqb tg sr).
    + destruct (t =? 0); [|exact I]. cbv zeta. do 2 (apply read_growing; intros ?). exact I.
    + apply read_growing. intros s. destruct (validateFrameId s _ tg); try exact I.
      apply read_growing. intros s'. destruct (validateFrameId s' _ sr); try exact I. apply read_growing. intros ?. exact I.
  - intros s. destruct (String.eqb tg sr).
    + destruct (t =? 0); reflexivity.
    + cbn [run_scope read]. destruct (validateFrameId s _ tg) as [tid|cl e|]; try reflexivity. cbn [bind run_scope read].
      destruct (validateFrameId s _ sr) as [sid|cl e|]; reflexivity.
Qed.
Definition one_scope c : Prop :=
  (exists a, code c = Return a /\ forall s, alone s c = (s, a)) \/
  (exists b, code c = Acquire b /\ growing b /\ forall s, in_range s -> run_scope b s = (fst (alone s c), Return (snd (alone s c)))).
Lemma ask_scope : forall (f : core -> answer S), exists b, ask_code f = Acquire b /\ growing b /\ forall s, run_scope b s = (s, Return (f s)).
Proof. intros f. eexists. split; [reflexivity|]. split; [apply read_growing; intros; exact I|reflexivity]. Qed.
Lemma simple_call : forall c, ~ is_fixed_lookup c -> one_scope c.
Proof.
  intros c F. destruct c as [m au st| |tg sr t|tg u sr w fx|tg sr t er|tg u sr w fx er| |now|now|n|n t| |tg sr er|tg u sr w fx]; cbn [is_fixed_lookup] in F; unfold one_scope; cbn [code alone].
  - unfold setTransform_code. set (m' := strip_msg m). destruct (setTransform_error m') eqn:Er.
    { left. eexists. split; [reflexivity|]. intros s. unfold setTransform. cbv zeta. fold m'. rewrite Er. reflexivity. }
    right. eexists. split; [reflexivity|]. split.
    + intros s0. split; [apply insert_grow|]. apply write_growing.
      { intros s. apply grow_same. unfold allocate. destruct (getFrame s _); reflexivity. }
      intros s1. split; [apply insert_grow|]. cbv zeta. intros s2. split.
      { apply grow_same. unfold insert_into. destruct (getFrame s2 _); reflexivity. }
      destruct (insert_result _ _ s2) as [[|e]|cl e|]; try exact I. apply write_growing; [intros s; apply grow_same; reflexivity|exact I].
    + intros s R. rewrite (setTransform_steps s m au st R). cbv zeta. fold m'. rewrite Er. cbn [run_scope write].
      destruct (insert_result _ _ _) as [[|e]|cl e|]; reflexivity.
  - right. eexists. split; [reflexivity|]. split; [apply read_growing; intros; apply clear_growing|].
    intros s R. cbn [run_scope read]. unfold clear. destruct (c_frames s) as [|f0 fs] eqn:E.
    + cbn. f_equal. destruct s. cbn in *. congruence.
    + cbn [List.length]. rewrite Nat.sub_succ, Nat.sub_0_r. change 1%nat with (List.length [f0]). rewrite (clear_from fs s [f0]) by exact E. reflexivity.
  - right. destruct (lookup_scope tg sr t (fun r => Return (Transform r))) as (b & E & G & R). exists b. repeat split; [exact E|exact G|intros; apply R].
  - exfalso. apply F. exact I.
  - unfold can_code, canTransform. destruct (String.eqb tg sr); [left; eexists; split; reflexivity|].
    destruct (warnFrameId tg); [left; eexists; split; reflexivity|]. destruct (warnFrameId sr); [left; eexists; split; reflexivity|].
    right. eexists. split; [reflexivity|]. split.
    + apply read_growing; intros s. cbv zeta. apply read_growing; intros s'. destruct (_ || _); [exact I|]. apply read_growing; intros; exact I.
    + intros s _. cbn [run_scope read fst snd]. destruct (_ || _); reflexivity.
  - unfold canFixed_code, canTransformFixed.
    destruct (warnFrameId tg); [left; eexists; split; reflexivity|]. destruct (warnFrameId sr); [left; eexists; split; reflexivity|].
    destruct (warnFrameId fx); [left; eexists; split; reflexivity|].
    right. eexists. split; [reflexivity|]. split.
    + apply read_growing; intros s. cbv zeta. do 2 (apply read_growing; intros ?). destruct (_ || _); [exact I|].
      apply read_growing; intros ?. destruct (canTransformNoLock _ _ _ _ _) as [[[|] e]|cl e|]; try exact I. apply read_growing; intros; exact I.
    + intros s _. cbn [run_scope read fst snd]. destruct (_ || _); [reflexivity|]. cbn [run_scope read].
      destruct (canTransformNoLock _ _ _ _ _) as [[[|] e]|cl e|]; reflexivity.
  - right. destruct (ask_scope (fun s => Text (allFramesAsString s))) as (b & E & G & R). exists b. repeat split; [exact E|exact G|intros; apply R].
  - right. destruct (ask_scope (fun s => Yaml (allFramesAsYAML s now))) as (b & E & G & R). exists b. repeat split; [exact E|exact G|intros; apply R].
  - right. destruct (ask_scope (fun s => Dot (allFramesAsDot s now))) as (b & E & G & R). exists b. repeat split; [exact E|exact G|intros; apply R].
  - right. destruct (ask_scope (fun s => Exists (frameExists s n))) as (b & E & G & R). exists b. repeat split; [exact E|exact G|intros; apply R].
  - right. unfold parent_code, getParentName. eexists. split; [reflexivity|]. split.
    + apply read_growing; intros s. cbv zeta. apply read_growing; intros s'. destruct (getFrame s' _); [|exact I].
      destruct (getParent _ t None) as [[o e]|cl e|]; try exact I. destruct (Nat.eqb _ 0); [exact I|]. apply read_growing; intros; exact I.
    + intros s _. cbn [run_scope read fst snd]. destruct (getFrame s _); [|reflexivity]. destruct (getParent _ t None) as [[o e]|cl e|]; cbn [bind]; try reflexivity.
      cbv zeta. destruct (Nat.eqb _ 0); reflexivity.
  - right. destruct (ask_scope (fun s => Names (getFrameStrings s))) as (b & E & G & R). exists b. repeat split; [exact E|exact G|intros; apply R].
  - right. destruct (ask_scope (fun s => Latest (getLatestCommonTime s tg sr er))) as (b & E & G & R). exists b. repeat split; [exact E|exact G|intros; apply R].
  - right. destruct (ask_scope (fun s => Chain (chainAsVector s tg u sr w fx))) as (b & E & G & R). exists b. repeat split; [exact E|exact G|intros; apply R].
Qed.
Lemma alone_range : forall s c, in_range s -> in_range (fst (alone s c)).
Proof.
  intros s c R. destruct c as [m au st| |tg sr t|tg u sr w fx|tg sr t er|tg u sr w fx er| |now|now|n|n t| |tg sr er|tg u sr w fx]; try exact R; cbn [alone].
  - destruct (setTransform s m au st) as [s' r] eqn:E. cbn [fst]. rewrite (setTransform_steps s m au st R) in E. cbv zeta in E.
    destruct (setTransform_error _); [injection E as <- _; exact R|].
    set (s1 := insert_name _ s) in *. assert (R1 : in_range s1) by (apply insert_range; exact R).
    set (s2 := allocate _ st s1) in *. assert (R2 : in_range s2) by (unfold s2, allocate; destruct (getFrame s1 _); [exact R1|apply set_range; exact R1]).
    set (s3 := insert_name _ s2) in *. assert (R3 : in_range s3) by (apply insert_range; exact R2).
    set (s4 := insert_into _ _ s3) in *. assert (R4 : in_range s4) by (unfold s4, insert_into; destruct (getFrame s3 _); [apply set_range; exact R3|exact R3]).
    destruct (insert_result _ _ s3) as [[|e]|cl e|]; injection E as <- _; exact R4.
  - intros n id H. unfold clear. cbn [fst c_frames]. pose proof (R n id H). destruct (c_frames s); [assumption|]. cbn [List.length] in *. rewrite map_length. assumption.
Qed.
End P.
