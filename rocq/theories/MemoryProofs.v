(** * How much a buffer keeps: proofs *)
From Coq Require Import ZArith Bool List String Lia Sorting.Sorted.
From Verif Require Import RosTime Scalar LinearMath Cache SpecCache CacheProofs CacheQueries CacheTheorems BufferCore SpecCore CoreInv CoreSet History CoreTheorems SpecMemory.
Import ListNotations.
Open Scope Z_scope.
Local Open Scope list_scope.

Section P.
Context {S : Scalar}.

(** ** One history *)
Lemma spaced_length : forall {F} (l : list (storage S F)) d lo hi, 0 < d -> newest_first l ->
  (forall x y, In x l -> In y l -> st_stamp x = st_stamp y \/ d <= Z.abs (st_stamp x - st_stamp y)) ->
  (forall x, In x l -> lo <= st_stamp x <= hi) -> l <> [] -> (Z.of_nat (List.length l) - 1) * d <= hi - lo.
Proof.
  intros F l d lo hi Hd. revert hi. induction l as [|x l IH]; intros hi N Sp B Ne; [destruct (Ne eq_refl)|].
  destruct l as [|y l]; [cbn; pose proof (B x (or_introl eq_refl)); lia|].
  apply nf_inv in N as (N & Nw). assert (Xy : d <= st_stamp x - st_stamp y).
  { pose proof (Nw y (or_introl eq_refl)). destruct (Sp x y (or_introl eq_refl) (or_intror (or_introl eq_refl))); lia. }
  assert (H : (Z.of_nat (List.length (y :: l)) - 1) * d <= st_stamp y - lo).
  { apply (IH (st_stamp y)); [exact N|intros a b Ha Hb; apply Sp; right; assumption| |discriminate].
    intros z Hz. pose proof (B z (or_intror Hz)). pose proof (nf_head_max _ _ _ N Hz). lia. }
  pose proof (B x (or_introl eq_refl)). cbn [List.length] in *. lia.
Qed.

Lemma history_length : forall (s : core S) n max l d, reachable s -> hist s n = Some (Dynamic max l) -> 0 < d ->
  (forall x y, In x l -> In y l -> st_stamp x = st_stamp y \/ d <= Z.abs (st_stamp x - st_stamp y)) ->
  (Z.of_nat (List.length l) - 1) * d <= max.
Proof.
  intros s n max l d R E Hd Sp. destruct (hist_ok s n _ (reachable_wf s R) E) as ((Hm & N & W & P) & _).
  destruct l as [|x l]; [cbn [List.length]; lia|].
  pose proof (spaced_length (x :: l) d (st_stamp x - max) (st_stamp x) Hd N Sp) as Q.
  assert (B : forall y, In y (x :: l) -> st_stamp x - max <= st_stamp y <= st_stamp x).
  { intros y Hy. pose proof (nf_head_max _ _ _ N Hy). pose proof (W y x Hy (or_introl eq_refl)). lia. }
  specialize (Q B ltac:(discriminate)). lia.
Qed.

(** ** What is kept was offered *)
Lemma insert_in : forall {F} (l : list (storage S F)) x l' y, insert_sorted l x = Some l' -> In y l' -> y = x \/ In y l.
Proof.
  intros F. induction l as [|a l IH]; intros x l' y H Hy; cbn in H.
  - inversion H; subst. destruct Hy as [<-|[]]. auto.
  - destruct (st_stamp a <=? st_stamp x).
    + destruct (st_stamp a =? st_stamp x); [discriminate|]. inversion H; subst. destruct Hy as [<-|Hy]; auto.
    + destruct (insert_sorted l x) as [l1|] eqn:E; [|discriminate]. inversion H; subst.
      destruct Hy as [<-|Hy]; [cbn; auto|]. destruct (IH x l1 y E Hy); cbn; auto.
Qed.
Lemma offered_in : forall {F} (c : cache S F) x y, In y (samples (fst (insertData c x))) -> y = x \/ In y (samples c).
Proof.
  intros F [max l|o] x y H; [|cbn in H; destruct H as [<-|[]]; auto].
  assert (G : In y (samples (fst (match insert_sorted l x with
      | None => (Dynamic max l, Ok (Rejected ERepeatedData))
      | Some l' => let '(l'', thrown) := pruneList l' max in
          (Dynamic max l'', if thrown then Throw RuntimeError ETimeRange else Ok Inserted)
      end))) -> y = x \/ In y l).
  { destruct (insert_sorted l x) as [l'|] eqn:E; [|cbn; auto].
    destruct (pruneList_prefix l' max) as [l2 P]. destruct (pruneList l' max) as [l'' th]. cbn [fst samples] in *.
    intros Hy. apply (insert_in l x l' y E). rewrite P. apply in_or_app. auto. }
  unfold insertData in H. destruct l as [|f l]; [exact (G H)|].
  destruct (time_add (st_stamp x) max); [|cbn in H; auto].
  destruct (t <? st_stamp f); [cbn in H; auto|exact (G H)].
Qed.
Lemma cleared_in : forall {F} (c : cache S F) y, In y (samples (clearList c)) -> In y (samples c).
Proof. intros F [max l|o] y H; [destruct H|exact H]. Qed.

Lemma fold_kept : forall ct n (ops : list (core_op S)) h c y, fold_left (frame_step ct n) ops h = Some c -> In y (samples c) ->
  In y (offers n ops) \/ exists c0, h = Some c0 /\ In y (samples c0).
Proof.
  intros ct n ops. induction ops as [|o ops IH]; intros h c y H Hy; [right; exists c; split; assumption|].
  cbn [fold_left] in H. destruct (IH _ c y H Hy) as [I|(c1 & E & I)].
  { left. unfold offers. cbn [flat_map]. apply in_or_app. right. exact I. }
  destruct o as [m a st|].
  - cbn [frame_step] in E. unfold offers. cbn [flat_map]. destruct (bad_message (strip_msg m)); [right; exists c1; split; assumption|].
    destruct (String.eqb (tm_child (strip_msg m)) n) eqn:Ec; [|right; exists c1; split; assumption].
    injection E as <-. apply offered_in in I as [->|I]; [left; left; reflexivity|].
    destruct h as [c0|]; [right; exists c0; split; [reflexivity|exact I]|]. destruct st; destruct I.
  - cbn [frame_step] in E. destruct h as [c0|]; [|discriminate]. cbn [option_map] in E. injection E as <-. right. exists c0. split; [reflexivity|exact (cleared_in _ _ I)].
Qed.
Lemma kept_offered : forall ct (ops : list (core_op S)) n c y, 0 <= ct < dur_bound -> Forall op_ok ops -> n <> NO_PARENT ->
  hist (run (init_core ct) ops) n = Some c -> In y (samples c) -> In y (offers n ops).
Proof.
  intros ct ops n c y Hct Hok Hn H Hy. rewrite hist_run in H by assumption.
  destruct (fold_kept ct n ops None c y H Hy) as [I|(c0 & E & _)]; [exact I|discriminate].
Qed.

Lemma hist_name : forall (s : core S) n c, reachable s -> hist s n = Some c -> n <> NO_PARENT.
Proof. intros s n c R H ->. rewrite hist_NO_PARENT in H by apply reachable_wf, R. discriminate. Qed.

Theorem kept_bound : forall ct (ops : list (core_op S)) d n, 0 <= ct < dur_bound -> Forall op_ok ops -> 0 < d -> spaced d ops ->
  Z.of_nat (kept (run (init_core ct) ops) n) <= ct / d + 1.
Proof.
  intros ct ops d n Hct Hok Hd Sp. assert (R : reachable (run (init_core ct) ops)) by (exists ct, ops; auto).
  pose proof (Z.div_pos ct d (proj1 Hct) Hd) as Q. unfold kept. destruct (hist (run (init_core ct) ops) n) as [c|] eqn:E; [|cbn; lia].
  pose proof (hist_name _ _ _ R E) as Hn. destruct (hist_ok _ n c (reachable_wf _ R) E) as (Ck & _ & Em & _).
  destruct c as [max l|o]; [|destruct o; cbn; lia]. 
  assert (Ct : c_cache_time (run (init_core ct) ops) = ct).
  { rewrite run_ct; [reflexivity|exact Hok|apply wf_init; exact Hct]. }
  rewrite Ct in Em. subst max.
  pose proof (history_length _ n ct l d R E Hd) as H. cbn [samples].
  assert (H1 : (Z.of_nat (List.length l) - 1) * d <= ct).
  { apply H. intros x y Hx Hy. apply (Sp n); eapply kept_offered; eassumption. }
  assert (Z.of_nat (List.length l) - 1 <= ct / d) by (apply Z.div_le_lower_bound; lia). lia.
Qed.

(** ** All frames *)
Lemma sum_bound : forall (f : string -> nat) B (L D : list string), NoDup L -> (forall n, In n L -> (f n <= B)%nat) -> (forall n, In n L -> f n <> 0%nat -> In n D) ->
  (list_sum (map f L) <= B * List.length (nodup string_dec D))%nat.
Proof.
  intros f B L D N HB HD. set (L' := filter (fun n => negb (Nat.eqb (f n) 0)) L).
  assert (E : (list_sum (map f L) <= B * List.length L')%nat).
  { unfold L'. clear L' N HD. induction L as [|n L IH]; [cbn; lia|]. cbn [map list_sum fold_right filter].
    pose proof (HB n (or_introl eq_refl)). specialize (IH (fun m I => HB m (or_intror I))). fold (list_sum (map f L)).
    change (f n + list_sum (map f L) <= B * List.length (if negb (Nat.eqb (f n) 0) then n :: filter (fun n => negb (Nat.eqb (f n) 0)) L else filter (fun n => negb (Nat.eqb (f n) 0)) L))%nat.
    destruct (Nat.eqb_spec (f n) 0) as [E0|E0]; cbn [negb List.length]; [|rewrite Nat.mul_succ_r]; lia. }
  assert (Le : (List.length L' <= List.length (nodup string_dec D))%nat).
  { apply NoDup_incl_length; [apply NoDup_filter, N|]. intros n I. apply filter_In in I as (I & P). apply nodup_In, HD; [exact I|].
    intros C. rewrite C in P. discriminate P. }
  pose proof (Nat.mul_le_mono_l _ _ B Le). lia.
Qed.
Lemma offers_child : forall (ops : list (core_op S)) n x, In x (offers n ops) -> In n (children ops).
Proof.
  intros ops n x H. unfold offers in H. apply in_flat_map in H as (o & Io & H). unfold children. apply in_flat_map. exists o. split; [exact Io|].
  destruct o as [m a st|]; [|destruct H]. destruct (bad_message (strip_msg m)); [destruct H|]. cbn [negb andb] in H.
  destruct (String.eqb (tm_child (strip_msg m)) n) eqn:E; [|destruct H]. apply String.eqb_eq in E. left. exact E.
Qed.
Theorem kept_in_all_bound : forall ct (ops : list (core_op S)) d, 0 <= ct < dur_bound -> Forall op_ok ops -> 0 < d -> spaced d ops ->
  Z.of_nat (kept_in_all (run (init_core ct) ops)) <= Z.of_nat (different (children ops)) * (ct / d + 1).
Proof.
  intros ct ops d Hct Hok Hd Sp. assert (R : reachable (run (init_core ct) ops)) by (exists ct, ops; auto).
  destruct (ids_bijective _ R) as (_ & _ & _ & Nd & Kn). unfold kept_in_all, different.
  pose proof (Z.div_pos ct d (proj1 Hct) Hd) as Q.
  pose proof (sum_bound (kept (run (init_core ct) ops)) (Z.to_nat (ct / d + 1)) (getFrameStrings (run (init_core ct) ops)) (remove string_dec NO_PARENT (children ops)) Nd) as H.
  assert (H' : (list_sum (map (kept (run (init_core ct) ops)) (getFrameStrings (run (init_core ct) ops))) <= Z.to_nat (ct / d + 1) * List.length (nodup string_dec (remove string_dec NO_PARENT (children ops))))%nat).
  { apply H.
    - intros n _. pose proof (kept_bound ct ops d n Hct Hok Hd Sp). lia.
    - intros n I K. apply Kn in I as (_ & Hn). unfold kept in K. destruct (hist (run (init_core ct) ops) n) as [c|] eqn:E; [|destruct (K eq_refl)].
      destruct (samples c) as [|y l] eqn:Es; [destruct (K eq_refl)|].
      apply in_in_remove; [exact Hn|]. apply (offers_child ops n y). apply (kept_offered ct ops n c y Hct Hok Hn E). rewrite Es. left. reflexivity. }
  apply Nat2Z.inj_le in H'. rewrite Nat2Z.inj_mul, Z2Nat.id in H' by lia. lia.
Qed.

Lemma mentions_named : forall (ops : list (core_op S)) n, Exists (mentions n) ops <-> In n (named ops).
Proof.
  intros ops n. unfold named. rewrite Exists_exists, in_flat_map. split; intros (o & Io & H); exists o; (split; [exact Io|]); destruct o as [m a st|]; cbn [mentions] in *; try destruct H.
  - rewrite H. destruct H0 as [<-|<-]; cbn; auto.
  - destruct (bad_message (strip_msg m)); [destruct H|]. split; [reflexivity|]. destruct H as [<-|[<-|[]]]; auto.
Qed.
Theorem frames_count : forall ct (ops : list (core_op S)), 0 <= ct < dur_bound -> Forall op_ok ops ->
  List.length (getFrameStrings (run (init_core ct) ops)) = different (named ops).
Proof.
  intros ct ops Hct Hok. assert (R : reachable (run (init_core ct) ops)) by (exists ct, ops; auto).
  destruct (ids_bijective _ R) as (_ & _ & _ & Nd & Kn). unfold different.
  assert (Eq : forall n, In n (getFrameStrings (run (init_core ct) ops)) <-> In n (nodup string_dec (remove string_dec NO_PARENT (named ops)))).
  { intros n. rewrite Kn, nodup_In, known_run by assumption. rewrite mentions_named. split.
    - intros (A & B). apply in_in_remove; assumption.
    - intros I. apply in_remove in I. destruct I; split; assumption. }
  apply Nat.le_antisymm; apply NoDup_incl_length; [exact Nd|intros n I; apply Eq, I|apply NoDup_nodup|intros n I; apply Eq, I].
Qed.
Theorem clear_frees : forall (s : core S), reachable s ->
  getFrameStrings (clear s) = getFrameStrings s /\
  forall n, match hist s n with Some (Dynamic _ _) => kept (clear s) n = 0%nat | _ => kept (clear s) n = kept s n end.
Proof.
  intros s R. split; [reflexivity|]. intros n. unfold kept. destruct (string_dec n NO_PARENT) as [->|Hn].
  - assert (R' : reachable (clear s)) by exact (reachable_step s OClear R I).
    rewrite !hist_NO_PARENT by (apply reachable_wf; assumption). reflexivity.
  - rewrite hist_clear by (apply reachable_wf, R). destruct (hist s n) as [[max l|o]|]; reflexivity.
Qed.
End P.
