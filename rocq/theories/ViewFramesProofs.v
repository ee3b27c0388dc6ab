(** * Proofs about view_frames.py *)
From Coq Require Import ZArith Bool List String Lia.
From Verif Require Import RosTime Scalar LinearMath Cache BufferCore SpecCore CoreSet CoreTheorems Introspection SpecIntro IntroProofs ViewFrames SpecViewFrames.
Import ListNotations.

Section Proofs.
Context {S : Scalar}.
Implicit Types (s : core S) (rows : list (row S)).

Lemma has_data_iff : forall s n, has_data s n = true <-> exists p, child_of s n p.
Proof.
  intros s n. unfold has_data, child_of. destruct (sample_at s 0 n) as [d|]; split; intros H; try discriminate; try reflexivity.
  - exists (st_frame d), d. auto.
  - destruct H as (p & d & H & _). discriminate.
Qed.
Lemma data_listed : forall s n, reachable s -> has_data s n = true -> In n (getFrameStrings s).
Proof.
  intros s n R H. apply (ids_bijective s R). unfold has_data, sample_at, hist in H.
  destruct (assoc n (c_ids s)) as [[|i]|] eqn:E; try discriminate. split.
  - unfold frameExists. rewrite E. reflexivity.
  - intros ->. pose proof (History.hist_NO_PARENT s (reachable_wf s R)) as X. unfold hist in X. rewrite E in X. rewrite X in H. discriminate.
Qed.

(** ordinary, distinct names: the dict is the list *)
Lemma dict_set_new : forall (d : dict S) k v, dict_in d k = false -> dict_set d k v = d ++ [(k, v)].
Proof.
  induction d as [|[k' v'] d IH]; intros k v H; [reflexivity|]. cbn [dict_in existsb fst] in H. apply orb_false_iff in H. destruct H as [A B].
  cbn [dict_set]. rewrite A. cbn [app]. f_equal. apply IH. exact B.
Qed.
Definition entries (rows : list (row S)) : dict S := map (fun r => (KStr (y_name r), r)) rows.
Lemma in_entries : forall rows p, dict_in (entries rows) (KStr p) = true <-> In p (map (@y_name S) rows).
Proof.
  intros rows p. unfold dict_in. rewrite existsb_exists, in_map_iff. split.
  - intros (e & H & E). unfold entries in H. apply in_map_iff in H. destruct H as (r & <- & H). cbn [fst ykey_eqb] in E. apply String.eqb_eq in E. eauto.
  - intros (r & <- & H). exists (KStr (y_name r), r). split; [unfold entries; apply in_map_iff; eauto|]. cbn [fst ykey_eqb]. apply String.eqb_refl.
Qed.
Lemma load_entries : forall resolve rows, (forall r, In r rows -> resolve (y_name r) = KStr (y_name r)) -> NoDup (map (@y_name S) rows) ->
  fold_left (fun d r => dict_set d (resolve (y_name r)) r) rows [] = entries rows.
Proof.
  intros resolve rows H N.
  assert (G : forall rest pre, pre ++ rest = rows -> fold_left (fun d r => dict_set d (resolve (y_name r)) r) rest (entries pre) = entries rows).
  { induction rest as [|r rest IH]; intros pre E; cbn [fold_left]; [rewrite app_nil_r in E; rewrite E; reflexivity|].
    rewrite H by (rewrite <- E; apply in_or_app; right; left; reflexivity). rewrite dict_set_new.
    - change [(KStr (y_name r), r)] with (entries [r]). unfold entries. rewrite <- map_app. apply IH. rewrite <- app_assoc. exact E.
    - destruct (dict_in (entries pre) (KStr (y_name r))) eqn:X; [|reflexivity]. exfalso. apply in_entries in X.
      rewrite <- E, map_app in N. cbn [map] in N. apply NoDup_remove_2 in N. apply N. apply in_or_app. auto. }
  exact (G rows [] eq_refl).
Qed.

Definition drawn (rows : list (row S)) : list (edge S) := map (fun r => mkEdge (y_parent r) (y_name r) r) rows.
Lemma draw_entries : forall data rows edges root, exists root',
  draw data (entries rows) edges root = (edges ++ drawn rows, root') /\
  (root' = root \/ exists r, In r rows /\ root' = Some (y_parent r) /\ dict_in data (KStr (y_parent r)) = false) /\
  (root' = None -> forall r, In r rows -> dict_in data (KStr (y_parent r)) = true).
Proof.
  intros data. induction rows as [|r rows IH]; intros edges root; cbn [entries map draw].
  - exists root. unfold drawn. cbn [map]. rewrite app_nil_r. split; [reflexivity|]. split; [left; reflexivity|]. intros _ r [].
  - set (rt := if negb (dict_in data (KStr (y_parent r))) then Some (y_parent r) else root).
    destruct (IH (edges ++ [mkEdge (y_parent r) (str (KStr (y_name r))) r]) rt) as (root' & E & A & B). fold (entries rows). exists root'. split; [|split].
    + rewrite E. cbn [str]. unfold drawn. cbn [map]. rewrite <- app_assoc. reflexivity.
    + destruct A as [->|(r' & I & A)]; [|right; exists r'; split; [right; exact I|exact A]].
      unfold rt. destruct (dict_in data (KStr (y_parent r))) eqn:D; cbn [negb]; [left; reflexivity|]. right. exists r. split; [left; reflexivity|]. auto.
    + intros N r' [<-|I]; [|exact (B N r' I)]. destruct A as [A|(r' & _ & A & _)]; [|rewrite N in A; discriminate]. rewrite N in A. symmetry in A.
      unfold rt in A. destruct (dict_in data (KStr (y_parent r))) eqn:D; [reflexivity|discriminate].
Qed.

Lemma view_cases : forall resolve s, reachable s -> ordinary_names resolve s ->
  exists rows, Forall2 (describes s szero) (filter (has_data s) (getFrameStrings s)) rows /\
  view_frames resolve s = Ok (
    match getFrameStrings s with
    | [] => NoData
    | _ => match rows with
           | [] => NoneHasNoLen
           | _ => match draw (entries rows) (entries rows) [] None with (edges, Some root) => Graph edges root | _ => UnboundRoot end
           end
    end).
Proof.
  intros resolve s R O. destruct (frames_as_yaml s szero R) as (rows & E & F0).
  assert (F : Forall2 (describes s szero) (filter (has_data s) (getFrameStrings s)) rows).
  { clear E. induction F0 as [|n r ns rs [H _] F IH]; constructor; auto. }
  exists rows. split; [exact F|]. unfold view_frames. rewrite E. cbn [bind]. f_equal.
  destruct (getFrameStrings s) as [|n0 ns] eqn:G; [reflexivity|]. cbn [safe_load]. destruct rows as [|r rows]; [reflexivity|].
  assert (Names : map (@y_name S) (r :: rows) = filter (has_data s) (n0 :: ns)).
  { clear -F. revert F. generalize (filter (has_data s) (n0 :: ns)). generalize (r :: rows). clear. intros rs ns F. induction F as [|n r ns rs D F IH]; [reflexivity|].
    cbn [map]. f_equal; [|exact IH]. destruct D as (d & c & hi & lo & D). decompose [and] D. assumption. }
  rewrite load_entries.
  - reflexivity.
  - intros r' I. apply O. rewrite G. apply (in_map (@y_name S)) in I. rewrite Names in I. apply filter_In in I. tauto.
  - rewrite Names. apply NoDup_filter. rewrite <- G. apply (ids_bijective s R).
Qed.

Lemma described_parent : forall s n r, describes s szero n r -> child_of s n (y_parent r) /\ y_name r = n.
Proof. intros s n r (d & c & hi & lo & D). decompose [and] D. split; [exists d; auto|assumption]. Qed.
Lemma rows_members : forall s ns rows, Forall2 (describes s szero) ns rows -> (forall n, In n ns -> exists r, In r rows /\ describes s szero n r) /\ (forall r, In r rows -> exists n, In n ns /\ describes s szero n r).
Proof.
  intros s ns rows F. induction F as [|n r ns rs D F [IH1 IH2]]; [split; intros ? []|]. split.
  - intros n' [<-|I]; [exists r; split; [left; reflexivity|exact D]|]. destruct (IH1 n' I) as (r' & I' & D'). exists r'. split; [right; exact I'|exact D'].
  - intros r' [<-|I]; [exists n; split; [left; reflexivity|exact D]|]. destruct (IH2 r' I) as (n' & I' & D'). exists n'. split; [right; exact I'|exact D'].
Qed.
Lemma child_unique : forall s n p p', child_of s n p -> child_of s n p' -> p = p'.
Proof. intros s n p p' (d & E & <-) (d' & E' & <-). congruence. Qed.

Theorem view_spec : forall resolve s, reachable s -> ordinary_names resolve s ->
  exists o, view_frames resolve s = Ok o /\
  match o with
  | NoData => getFrameStrings s = []
  | NoneHasNoLen => getFrameStrings s <> [] /\ forall n, has_data s n = false
  | UnboundRoot => (exists n, has_data s n = true) /\ rootless s
  | Graph edges root => Forall2 (shows s) (filter (has_data s) (getFrameStrings s)) edges /\ (exists n, child_of s n root) /\ has_data s root = false
  end.
Proof.
  intros resolve s R O. destruct (view_cases resolve s R O) as (rows & F & E). rewrite E. eexists. split; [reflexivity|].
  destruct (getFrameStrings s) as [|n0 ns] eqn:G; [reflexivity|]. rewrite <- G in F |- *.
  destruct (rows_members _ _ _ F) as [M1 M2].
  assert (Mem : forall n, has_data s n = true <-> In n (map (@y_name S) rows)).
  { intros n. split; intros H.
    - destruct (M1 n) as (r & I & D); [apply filter_In; split; [apply data_listed; assumption|assumption]|]. apply in_map_iff. exists r. destruct (described_parent s n r D). auto.
    - apply in_map_iff in H. destruct H as (r & <- & I). destruct (M2 r I) as (n' & I' & D). destruct (described_parent s n' r D) as [_ ->]. apply filter_In in I'. tauto. }
  destruct rows as [|r rows].
  { split; [rewrite G; discriminate|]. intros n. destruct (has_data s n) eqn:H; [|reflexivity]. apply Mem in H. destruct H. }
  assert (Din : forall p, dict_in (entries (r :: rows)) (KStr p) = has_data s p).
  { intros p. pose proof (in_entries (r :: rows) p) as X. rewrite <- Mem in X. destruct (dict_in _ _), (has_data s p); try reflexivity; [symmetry; apply X; reflexivity|apply X; reflexivity]. }
  destruct (draw_entries (entries (r :: rows)) (r :: rows) [] None) as (root' & Ed & A & B). rewrite Ed. cbn [app].
  destruct root' as [root|].
  - destruct A as [A|(r' & I & A & C)]; [discriminate|]. injection A as ->. rewrite Din in C. split; [|split; [|exact C]].
    + unfold drawn. clear -F. revert F. generalize (filter (has_data s) (getFrameStrings s)). generalize (r :: rows). intros rs ns' F. induction F as [|n r0 ns1 rs D F IH]; cbn [map]; constructor; [|exact IH].
      destruct (described_parent s n r0 D) as [P Nm]. split; [exact P|]. split; [exact Nm|exact D].
    + destruct (M2 r' I) as (n & _ & D). exists n. apply (described_parent s n r' D).
  - specialize (B eq_refl). split.
    + exists (y_name r). apply Mem. left. reflexivity.
    + intros n p C. destruct (M1 n) as (r' & I & D).
      * assert (H : has_data s n = true) by (apply has_data_iff; exists p; exact C). apply filter_In. split; [apply data_listed|]; assumption.
      * destruct (described_parent s n r' D) as [P _]. rewrite (child_unique s n p _ C P), <- Din. apply B, I.
Qed.

(** no root: every frame is under a cycle *)
Lemma rootless_endless : forall s n, reachable s -> rootless s -> has_data s n = true -> endless s 0 n.
Proof.
  intros s n R Rl H k. assert (Np : forall p, child_of s p NO_PARENT -> False).
  { intros p C. apply Rl in C. unfold has_data, sample_at in C. rewrite (History.hist_NO_PARENT s (reachable_wf s R)) in C. discriminate. }
  revert n H. induction k as [|k IH]; intros n H.
  - exists [], n. split; [constructor|reflexivity].
  - apply has_data_iff in H. destruct H as (p & d & Ed & Ep). assert (C : child_of s n p) by (exists d; auto).
    destruct (IH p (Rl n p C)) as (ds & m & Cl & L). exists (d :: ds), m. split; [|cbn [List.length]; rewrite L; reflexivity].
    apply climbs_cons; [|rewrite Ep; exact Cl]. unfold link. rewrite Ed. destruct (String.eqb_spec (st_frame d) NO_PARENT) as [X|X]; [|reflexivity].
    exfalso. apply (Np n). exists d. auto.
Qed.
End Proofs.
