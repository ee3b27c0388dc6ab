(** * Proofs about the lifetime of transform listeners *)
From Coq Require Import ZArith Bool List String Lia Arith.
From Verif Require Import RosTime Scalar LinearMath Cache SpecCache CacheProofs CacheQueries BufferCore SpecCore CoreInv CoreSet
  History Malformed NoRange CoreTheorems Requests SpecRequests RequestProofs RequestHistory TfTopics SpecTopics TopicProofs Network SpecNetwork NetworkProofs Listeners SpecListeners.
Import ListNotations.
Open Scope Z_scope.

Section P.
Context {S : Scalar}.
Notation tmsg := (tmsg S).
Notation arrival := (arrival S).
Notation note := (note S).
Notation proc_op := (proc_op S).
Notation process := (process S).
Notation live := (live S).
Notation slot := (slot S).
Implicit Types (p : process) (v : live) (ops : list proc_op).

(** ** slots *)
Lemma set_slot_same : forall (l : list slot) k x y, nth_error l k = Some y -> nth_error (set_slot l k x) k = Some x.
Proof. induction l as [|z l IH]; intros [|k] x y H; cbn in *; try discriminate H; [reflexivity|]. eapply IH, H. Qed.
Lemma set_slot_other : forall (l : list slot) k j x, j <> k -> nth_error (set_slot l k x) j = nth_error l j.
Proof. induction l as [|z l IH]; intros k j x N; [reflexivity|]. destruct k as [|k], j as [|j]; cbn; try reflexivity; [destruct (N eq_refl)|]. apply IH. congruence. Qed.
Lemma set_slot_length : forall (l : list slot) k x, List.length (set_slot l k x) = List.length l.
Proof. induction l as [|z l IH]; intros [|k] x; cbn; congruence. Qed.

Lemma proc_snoc : forall warn ct ops o, proc_run warn ct (ops ++ [o]) = proc_step warn (proc_run warn ct ops) o.
Proof. intros. unfold proc_run. rewrite fold_left_app. reflexivity. Qed.

(** ** the buffer is what the log says *)
Lemma run_more : forall (s : core S) a b, run s (a ++ b) = run (run s a) b.
Proof. intros. unfold run. apply fold_left_app. Qed.
Lemma calls_app : forall (l l' : list note), calls_in (l ++ l') = calls_in l ++ calls_in l'.
Proof. intros. apply flat_map_app. Qed.
Lemma work_log : forall warn s k v now s' v' notes out, work_step warn s k v now = (s', v', notes, out) -> s' = run s (calls_in notes).
Proof.
  intros warn s k v now s' v' notes out H. unfold work_step in H. destruct (v_work v) as [[[who st] [|m ms]]|].
  - injection H as <- _ <- _. reflexivity.
  - destruct (setTransform s m who st) as [s1 r] eqn:E.
    assert (X : s1 = run s (calls_in [Put k m who st])) by (cbn; rewrite E; reflexivity). destruct r as [b|[] e|]; injection H as <- _ <- _; exact X.
  - destruct (v_queue v) as [|[[who st] msg] q]; [injection H as <- _ <- _; reflexivity|]. destruct (if (now <? v_last v) && warn then _ else _); [|injection H as <- _ <- _; reflexivity..].
    injection H as <- _ <- _. destruct (now <? v_last v); reflexivity.
Qed.
Theorem log_replays : forall warn ct ops, p_core (proc_run warn ct ops) = run (init_core ct) (calls_in (p_log (proc_run warn ct ops))).
Proof.
  intros warn ct ops. induction ops as [|o ops IH] using rev_ind; [reflexivity|]. rewrite proc_snoc. set (p := proc_run warn ct ops) in *. clearbody p.
  assert (W : forall k v now own, p_core (worked warn p k v now own) = run (init_core ct) (calls_in (p_log (worked warn p k v now own)))).
  { intros k v now own. unfold worked. destruct (work_step warn (p_core p) k v now) as [[[s v'] notes] out] eqn:E. cbn [p_core p_log]. rewrite calls_app, run_more, <- IH. exact (work_log _ _ _ _ _ _ _ _ _ E). }
  unfold proc_step. destruct (p_crashed p); [exact IH|]. destruct o as [sp|k who st msg|k i|k now|k now|k|k|b]; try exact IH;
    destruct (nth_error (p_slots p) k) as [[v|]|]; try exact IH; destruct (v_where v) as [| |[|n]|]; try exact IH; try apply W; destruct (v_work v); try exact IH; destruct (v_run v); exact IH.
Qed.

(** ** each listener does what it owes *)
Definition rest_of (k : nat) v : list note := match v_work v with Some (who, st, ms) => map (fun m => Put k m who st) ms | None => [] end.
Lemma by_app : forall k (l l' : list note), by_listener k (l ++ l') = by_listener k l ++ by_listener k l'.
Proof. intros. apply filter_app. Qed.
Lemma taken_app : forall k (l l' : list note), taken k (l ++ l') = taken k l ++ taken k l'.
Proof. intros. apply flat_map_app. Qed.
Lemma owed_snoc : forall k (h : list arrival) last a, owed_notes k last (h ++ [a]) = owed_notes k last h ++ Took k a :: (if a_now a <? last_clock last h then [Cleared k] else []) ++ map (fun m => Put k m (a_who a) (a_static a)) (a_msg a).
Proof.
  intros k. induction h as [|x h IH]; intros last a; cbn [app owed_notes]; [rewrite app_nil_r; reflexivity|]. rewrite IH. rewrite <- !app_assoc. reflexivity.
Qed.
Lemma last_snoc : forall (h : list arrival) last a, last_clock last (h ++ [a]) = a_now a.
Proof. intros. unfold last_clock. rewrite fold_left_app. reflexivity. Qed.
Definition note_by (x : note) : nat := match x with Took j _ | Cleared j | Put j _ _ _ => j end.
Lemma by_all : forall k (l : list note), (forall x, In x l -> note_by x = k) -> by_listener k l = l.
Proof.
  intros k. induction l as [|x l IH]; intros H; [reflexivity|]. unfold by_listener in *. cbn [filter]. pose proof (H x (or_introl eq_refl)) as E. rewrite IH by (intros y Hy; apply H; right; exact Hy). destruct x; cbn [note_by] in E; rewrite E, Nat.eqb_refl; reflexivity.
Qed.
Lemma by_none : forall k j (l : list note), j <> k -> (forall x, In x l -> note_by x = k) -> by_listener j l = [] /\ taken j l = [].
Proof.
  intros k j. induction l as [|x l IH]; intros N H; [split; reflexivity|]. pose proof (H x (or_introl eq_refl)) as E. destruct (IH N (fun y Hy => H y (or_intror Hy))) as (A & B). apply not_eq_sym, Nat.eqb_neq in N.
  unfold by_listener, taken in *. cbn [filter flat_map]. destruct x; cbn [note_by] in E; rewrite E, N; split; try exact A; exact B.
Qed.
Definition idle_where v : Prop := match v_where v with Testing | Calling O | Exited => v_work v = None | _ => True end.
Record live_ok (ct : duration) (cl : list time) (k : nat) (log : list note) v : Prop := mkLiveOk {
  lo_owed : by_listener k log ++ rest_of k v = owed_notes k 0 (taken k log);
  lo_last : v_last v = last_clock 0 (taken k log);
  lo_clock : v_last v = 0 \/ In (v_last v) cl;
  lo_queue : forall who st msg m, In (who, st, msg) (v_queue v) -> In m msg -> in_range ct m;
  lo_work : forall who st ms m, v_work v = Some (who, st, ms) -> In m ms -> in_range ct m;
  lo_idle : idle_where v }.
Lemma work_ok : forall warn ct cl s k v now s' v' notes out log, (forall t, In t cl -> valid_time t) -> (forall t t', In t cl -> In t' cl -> t - t' < dur_bound) -> In now cl ->
  reachable s -> c_cache_time s = ct -> live_ok ct cl k log v -> (match v_where v with NoThread | Calling (Datatypes.S _) => True | _ => False end) ->
  work_step warn s k v now = (s', v', notes, out) ->
  out = false /\ reachable s' /\ c_cache_time s' = ct /\ (forall x, In x notes -> note_by x = k) /\ live_ok ct cl k (log ++ notes) v'.
Proof.
  intros warn ct cl s k v now s' v' notes out log Vt Dt Hn R Ct [Ow La Cl Qu Wo Id] Wh H. unfold work_step in H.
  assert (Cb : v_work v = None \/ (exists who st, v_work v = Some (who, st, [])) -> live_ok ct cl k (log ++ []) (called_back v)).
  { intros X. rewrite app_nil_r. constructor; cbn [called_back v_last v_queue v_work v_run rest_of]; try assumption.
    - rewrite <- Ow. f_equal. unfold rest_of. destruct X as [->|(who & st & ->)]; reflexivity.
    - intros who st ms m E. discriminate E.
    - unfold idle_where. cbn [called_back v_where v_work]. destruct (v_where v) as [| |[|n]|]; auto. destruct n; auto. }
  destruct (v_work v) as [[[who st] [|m ms]]|] eqn:Ew.
  - injection H as <- <- <- <-. split; [reflexivity|]. split; [exact R|]. split; [exact Ct|]. split; [intros x []|]. apply Cb. right. eauto.
  - assert (Rm : in_range (c_cache_time s) m) by (rewrite Ct; eapply Wo; [reflexivity|left; reflexivity]).
    destruct (set_true_or_false s m who st R Rm) as (b & Eb). destruct (setTransform s m who st) as [s1 r] eqn:E. cbn [snd] in Eb. subst r. injection H as <- <- <- <-. split; [reflexivity|].
    assert (X : s1 = step s (OSet m who st)) by (cbn [step]; rewrite E; reflexivity).
    split; [subst s1; apply reachable_step; [exact R|exact (proj1 Rm)]|].
    split; [subst s1; rewrite step_ct; [exact Ct|apply reachable_wf, R|exact (proj1 Rm)]|]. split; [intros x [<-|[]]; reflexivity|].
    constructor; cbn [v_last v_queue v_work v_run rest_of].
    + rewrite by_app, taken_app. cbn [taken flat_map]. rewrite app_nil_r, (by_all k [Put k m who st]) by (intros x [<-|[]]; reflexivity). rewrite <- app_assoc. rewrite <- Ow. unfold rest_of. rewrite Ew. reflexivity.
    + rewrite taken_app. cbn [taken flat_map]. rewrite app_nil_r. exact La.
    + exact Cl.
    + exact Qu.
    + intros w0 st0 ms0 m0 E0 Hm. injection E0 as <- <- <-. eapply Wo; [reflexivity|right; exact Hm].
    + unfold idle_where. cbn [v_where v_work]. destruct (v_where v) as [| |[|n]|]; auto; destruct Wh.
  - destruct (v_queue v) as [|[[who st] msg] q] eqn:Eq.
    + injection H as <- <- <- <-. split; [reflexivity|]. split; [exact R|]. split; [exact Ct|]. split; [intros x []|]. apply Cb. left. reflexivity.
    + assert (Q : exists d, (if (now <? v_last v) && warn then lift_time (time_sub (v_last v) now) else Ok 0) = Ok d).
      { destruct (Z.ltb_spec now (v_last v)) as [Lt|Le]; [|eexists; reflexivity]. destruct warn; [|eexists; reflexivity]. unfold time_sub, valid_durb. cbn [andb].
        assert (J : v_last v - now < dur_bound) by (destruct Cl as [C0|C1]; [rewrite C0; destruct (Vt now Hn); unfold dur_bound; lia|apply Dt; assumption]).
        replace (- dur_bound <=? v_last v - now) with true by (symmetry; apply Z.leb_le; unfold dur_bound in *; lia). replace (v_last v - now <? dur_bound) with true by (symmetry; apply Z.ltb_lt; exact J). eexists; reflexivity. }
      destruct Q as (d & Eq'). rewrite Eq' in H. injection H as <- <- <- <-. split; [reflexivity|].
      split; [destruct (now <? v_last v); [|exact R]; exact (reachable_step _ OClear R I)|].
      split; [destruct (now <? v_last v); [|exact Ct]; change (clear s) with (step s OClear); rewrite step_ct; [exact Ct|apply reachable_wf, R|exact I]|].
      assert (Nb : forall x : note, In x (Took k (mkArrival now who st msg) :: (if now <? v_last v then [Cleared k] else [])) -> note_by x = k) by (intros x [<-|Hx]; [reflexivity|destruct (now <? v_last v); [destruct Hx as [<-|[]]; reflexivity|destruct Hx]]).
      split; [exact Nb|].
      assert (Tk : taken k (Took k (mkArrival now who st msg) :: (if now <? v_last v then [Cleared k] else [])) = [mkArrival now who st msg]) by (unfold taken; cbn [flat_map]; rewrite Nat.eqb_refl; destruct (now <? v_last v); reflexivity).
      unfold rest_of in Ow. rewrite Ew in Ow. rewrite app_nil_r in Ow.
      constructor; cbn [v_last v_queue v_work v_run].
      * rewrite by_app, taken_app, Tk, (by_all k _ Nb), owed_snoc, <- La, Ow, <- app_assoc. reflexivity.
      * rewrite taken_app, Tk, last_snoc. reflexivity.
      * right. exact Hn.
      * intros w0 st0 ms0 m0 H0 Hm. eapply Qu; [right; exact H0|exact Hm].
      * intros w0 st0 ms0 m0 E0 Hm. injection E0 as <- <- <-. eapply Qu; [left; reflexivity|exact Hm].
      * unfold idle_where. cbn [v_where v_work]. destruct (v_where v) as [| |[|n]|]; auto; destruct Wh.
Qed.
Record proc_ok (ct : duration) (cl : list time) p : Prop := mkProcOk {
  po_alive : p_crashed p = false;
  po_reach : reachable (p_core p);
  po_ct : c_cache_time (p_core p) = ct;
  po_slots : forall k, match nth_error (p_slots p) k with
    | Some (Alive v) => live_ok ct cl k (p_log p) v
    | Some Gone => by_listener k (p_log p) = owed_notes k 0 (taken k (p_log p))
    | None => by_listener k (p_log p) = [] /\ taken k (p_log p) = []
    end }.
Lemma live_more : forall ct cl cl' k log v, (forall t, In t cl -> In t cl') -> live_ok ct cl k log v -> live_ok ct cl' k log v.
Proof. intros ct cl cl' k log v H [Ow La Cl Qu Wo Id]. constructor; try assumption. destruct Cl as [C|C]; [left; exact C|right; apply H, C]. Qed.
Lemma proc_more : forall ct cl cl' p, (forall t, In t cl -> In t cl') -> proc_ok ct cl p -> proc_ok ct cl' p.
Proof.
  intros ct cl cl' p H [A R C Sl]. constructor; try assumption. intros k. specialize (Sl k). destruct (nth_error (p_slots p) k) as [[v|]|]; [eapply live_more; eassumption|exact Sl..].
Qed.
Lemma put_ok : forall ct cl p k v v', proc_ok ct cl p -> nth_error (p_slots p) k = Some (Alive v) -> (live_ok ct cl k (p_log p) v -> live_ok ct cl k (p_log p) v') -> proc_ok ct cl (put_slot p k v').
Proof.
  intros ct cl p k v v' [A R C Sl] E H. constructor; try assumption. intros j. cbn [put_slot p_slots p_log]. destruct (Nat.eq_dec j k) as [->|N]; [|rewrite set_slot_other by exact N; apply Sl].
  rewrite (set_slot_same _ _ _ _ E). specialize (Sl k). rewrite E in Sl. apply H, Sl.
Qed.
Lemma worked_ok : forall warn ct cl p k v now own, (forall t, In t cl -> valid_time t) -> (forall t t', In t cl -> In t' cl -> t - t' < dur_bound) -> In now cl ->
  proc_ok ct cl p -> nth_error (p_slots p) k = Some (Alive v) -> (match v_where v with NoThread | Calling (Datatypes.S _) => True | _ => False end) -> proc_ok ct cl (worked warn p k v now own).
Proof.
  intros warn ct cl p k v now own Vt Dt Hn [A R C Sl] E Wh. unfold worked. destruct (work_step warn (p_core p) k v now) as [[[s v'] notes] out] eqn:Ew. pose proof (Sl k) as Sk. rewrite E in Sk.
  destruct (work_ok _ _ _ _ _ _ _ _ _ _ _ (p_log p) Vt Dt Hn R C Sk Wh Ew) as (-> & R' & C' & Nb & L'). constructor; cbn [p_crashed p_core p_slots p_log andb]; try assumption; [reflexivity|].
  intros j. destruct (Nat.eq_dec j k) as [->|N]; [rewrite (set_slot_same _ _ _ _ E); exact L'|]. rewrite set_slot_other by exact N. specialize (Sl j). destruct (by_none k j notes N Nb) as (X & Y).
  rewrite by_app, taken_app, X, Y, !app_nil_r. destruct (nth_error (p_slots p) j) as [[w|]|]; try exact Sl. destruct Sl as [Ow La Cl Qu Wo Id]. constructor; try assumption; [rewrite by_app, taken_app, X, Y, !app_nil_r; exact Ow|rewrite taken_app, Y, app_nil_r; exact La].
Qed.
Lemma calm_less : forall ct ops o, calm ct (ops ++ [o]) -> calm ct ops.
Proof.
  intros ct ops o (A & B & C). unfold clocks in *. rewrite flat_map_app in *. split; [intros k who st msg m H; eapply A; apply in_app_iff; left; exact H|]. split; [intros t H; apply B; apply in_app_iff; left; exact H|].
  intros t t' H H'. apply C; apply in_app_iff; left; assumption.
Qed.
Lemma drop_sub : forall {A} (l : list A) i x, In x (drop_nth i l) -> In x l.
Proof.
  unfold drop_nth. induction l as [|y l IH]; intros [|i] x H; cbn [firstn skipn app] in H; try exact H; [right; exact H|]. destruct H as [<-|H]; [left; reflexivity|right; exact (IH i x H)].
Qed.
Theorem calm_ok : forall warn ct ops, 0 <= ct < dur_bound -> calm ct ops -> proc_ok ct (clocks ops) (proc_run warn ct ops).
Proof.
  intros warn ct ops Hct. induction ops as [|o ops IH] using rev_ind; intros Cm.
  - constructor; cbn; [reflexivity|exists ct, []; auto|reflexivity|]. intros [|k]; split; reflexivity.
  - specialize (IH (calm_less _ _ _ Cm)). rewrite proc_snoc. set (p := proc_run warn ct ops) in *. clearbody p.
    assert (P : proc_ok ct (clocks (ops ++ [o])) p) by (eapply proc_more; [|exact IH]; intros t Ht; unfold clocks; rewrite flat_map_app; apply in_app_iff; left; exact Ht). clear IH.
    destruct Cm as (Ar & Vt & Dt). set (cl := clocks (ops ++ [o])) in *.
    assert (Now : forall k now, o = Step k now \/ o = Spin k now -> In now cl) by (intros k now [->| ->]; unfold cl, clocks; rewrite flat_map_app; apply in_app_iff; right; left; reflexivity).
    pose proof P as [Al R C Sl]. unfold proc_step. rewrite Al. destruct o as [sp|k who st msg|k i|k now|k now|k|k|b].
    + constructor; cbn [p_crashed p_core p_slots p_log]; try assumption; [reflexivity|]. intros k. specialize (Sl k). destruct (Nat.lt_trichotomy k (List.length (p_slots p))) as [L|[->|L]].
      * rewrite nth_error_app1 by exact L. exact Sl.
      * rewrite nth_error_app2, Nat.sub_diag by lia. cbn [nth_error]. rewrite (proj2 (nth_error_None _ _)) in Sl by lia. destruct Sl as (X & Y). constructor; cbn [v_last v_queue v_work v_where]; [rewrite X, Y; reflexivity|rewrite Y; reflexivity|left; reflexivity|intros ? ? ? ? []|intros ? ? ? ? E; discriminate E|].
        unfold idle_where. cbn [v_where v_work]. destruct sp; auto.
      * rewrite nth_error_app2 by lia. rewrite (proj2 (nth_error_None _ _)) in Sl by lia. rewrite (proj2 (nth_error_None [_] _)) by (cbn; lia). exact Sl.
    + destruct (nth_error (p_slots p) k) as [[v|]|] eqn:E; try exact P. apply (put_ok ct cl p k v); try assumption. intros [Ow La Cl Qu Wo Id]. constructor; cbn [v_last v_queue v_work v_where]; try assumption.
      intros w0 st0 ms0 m0 H0 Hm. apply in_app_iff in H0 as [H0|[H0|[]]]; [eapply Qu; eassumption|]. injection H0 as <- <- <-. eapply Ar; [apply in_app_iff; right; left; reflexivity|exact Hm].
    + destruct (nth_error (p_slots p) k) as [[v|]|] eqn:E; try exact P. apply (put_ok ct cl p k v); try assumption. intros [Ow La Cl Qu Wo Id]. constructor; cbn [v_last v_queue v_work v_where]; try assumption.
      intros w0 st0 ms0 m0 H0 Hm. eapply Qu; [exact (drop_sub _ _ _ H0)|exact Hm].
    + destruct (nth_error (p_slots p) k) as [[v|]|] eqn:E; try exact P. destruct (v_where v) as [| |[|n]|] eqn:Ew; try exact P.
      * apply (put_ok ct cl p k v); try assumption. intros [Ow La Cl Qu Wo Id]. unfold idle_where in Id. rewrite Ew in Id. constructor; cbn [v_last v_queue v_work v_where]; try assumption. unfold idle_where. cbn [v_where v_work]. destruct (v_run v); [destruct (List.length (v_queue v)); auto|exact Id].
      * apply (put_ok ct cl p k v); try assumption. intros [Ow La Cl Qu Wo Id]. unfold idle_where in Id. rewrite Ew in Id. constructor; cbn [v_last v_queue v_work v_where]; try assumption.
      * apply worked_ok with (cl := cl); try assumption; [eapply Now; left; reflexivity|rewrite Ew; exact I].
    + destruct (nth_error (p_slots p) k) as [[v|]|] eqn:E; try exact P. destruct (v_where v) as [| |[|n]|] eqn:Ew; try exact P. apply worked_ok with (cl := cl); try assumption; [eapply Now; right; reflexivity|rewrite Ew; exact I].
    + destruct (nth_error (p_slots p) k) as [[v|]|] eqn:E; try exact P. apply (put_ok ct cl p k v); try assumption. intros [Ow La Cl Qu Wo Id]. constructor; assumption.
    + destruct (nth_error (p_slots p) k) as [[v|]|] eqn:E; try exact P.
      assert (G : v_work v = None -> proc_ok ct cl (mkProc (p_core p) (p_waits p) (set_slot (p_slots p) k Gone) (p_log p) false)).
      { intros Wn. constructor; cbn [p_crashed p_core p_slots p_log]; try assumption; [reflexivity|]. intros j. destruct (Nat.eq_dec j k) as [->|N]; [|rewrite set_slot_other by exact N; apply Sl].
        rewrite (set_slot_same _ _ _ _ E). specialize (Sl k). rewrite E in Sl. destruct Sl as [Ow La Cl Qu Wo Id]. rewrite <- Ow. unfold rest_of. rewrite Wn, app_nil_r. reflexivity. }
      specialize (Sl k). rewrite E in Sl. destruct Sl as [Ow La Cl Qu Wo Id]. unfold idle_where in Id. destruct (v_where v) as [| |n|]; try exact P.
      * destruct (v_work v); [exact P|]. destruct (v_run v); [exact P|]. apply G. reflexivity.
      * destruct (v_run v); [exact P|]. apply G, Id.
    + constructor; cbn [p_crashed p_core p_slots p_log]; try assumption. reflexivity.
Qed.

(** ** after the destructor *)
Lemma work_notes : forall warn s k v now s' v' notes out, work_step warn s k v now = (s', v', notes, out) -> forall x, In x notes -> note_by x = k.
Proof.
  intros warn s k v now s' v' notes out H x Hx. unfold work_step in H. destruct (v_work v) as [[[who st] [|m ms]]|].
  - injection H as _ _ <- _. destruct Hx.
  - destruct (setTransform s m who st) as [s1 r]. destruct r as [b|[] e|]; injection H as _ _ <- _; destruct Hx as [<-|[]]; reflexivity.
  - destruct (v_queue v) as [|[[who st] msg] q]; [injection H as _ _ <- _; destruct Hx|]. destruct (if (now <? v_last v) && warn then _ else _); [|injection H as _ _ <- _; destruct Hx as [<-|[]]; reflexivity..].
    injection H as _ _ <- _. destruct Hx as [<-|Hx]; [reflexivity|]. destruct (now <? v_last v); [destruct Hx as [<-|[]]; reflexivity|destruct Hx].
Qed.
Lemma gone_step : forall warn p o k, destroyed p k -> destroyed (proc_step warn p o) k /\ by_listener k (p_log (proc_step warn p o)) = by_listener k (p_log p).
Proof.
  intros warn p o k D. unfold destroyed in *. unfold proc_step. destruct (p_crashed p); [auto|].
  assert (W : forall j v now own, nth_error (p_slots p) j = Some (Alive v) -> nth_error (p_slots (worked warn p j v now own)) k = Some Gone /\ by_listener k (p_log (worked warn p j v now own)) = by_listener k (p_log p)).
  { intros j v now own E. assert (N : k <> j) by (intros ->; rewrite D in E; discriminate E). unfold worked. destruct (work_step warn (p_core p) j v now) as [[[s v'] notes] out] eqn:Ew. cbn [p_slots p_log]. rewrite set_slot_other by exact N. split; [exact D|].
    rewrite by_app, (proj1 (by_none j k notes N (work_notes _ _ _ _ _ _ _ _ _ Ew))), app_nil_r. reflexivity. }
  assert (U : forall j v x, nth_error (p_slots p) j = Some (Alive v) -> nth_error (set_slot (p_slots p) j x) k = Some Gone) by (intros j v x E; rewrite set_slot_other; [exact D|intros ->; rewrite D in E; discriminate E]).
  destruct o as [sp|j who st msg|j i|j now|j now|j|j|b]; try (split; [exact D|reflexivity]).
  - cbn [p_slots p_log]. split; [|reflexivity]. rewrite nth_error_app1; [exact D|]. apply nth_error_Some. rewrite D. discriminate.
  - destruct (nth_error (p_slots p) j) as [[v|]|] eqn:E; try (split; [exact D|reflexivity]). split; [eapply U, E|reflexivity].
  - destruct (nth_error (p_slots p) j) as [[v|]|] eqn:E; try (split; [exact D|reflexivity]). split; [eapply U, E|reflexivity].
  - destruct (nth_error (p_slots p) j) as [[v|]|] eqn:E; try (split; [exact D|reflexivity]). destruct (v_where v) as [| |[|n]|]; try (split; [exact D|reflexivity]); [split; [eapply U, E|reflexivity]..|apply W, E].
  - destruct (nth_error (p_slots p) j) as [[v|]|] eqn:E; try (split; [exact D|reflexivity]). destruct (v_where v) as [| |[|n]|]; try (split; [exact D|reflexivity]). apply W, E.
  - destruct (nth_error (p_slots p) j) as [[v|]|] eqn:E; try (split; [exact D|reflexivity]). split; [eapply U, E|reflexivity].
  - destruct (nth_error (p_slots p) j) as [[v|]|] eqn:E; try (split; [exact D|reflexivity]). destruct (v_where v) as [| |n|]; try (split; [exact D|reflexivity]); [destruct (v_work v); try (split; [exact D|reflexivity])|]; destruct (v_run v); try (split; [exact D|reflexivity]); (split; [eapply U, E|reflexivity]).
Qed.
Lemma proc_app : forall warn ct ops ops', proc_run warn ct (ops ++ ops') = fold_left (proc_step warn) ops' (proc_run warn ct ops).
Proof. intros. unfold proc_run. apply fold_left_app. Qed.
Theorem after_destruction : forall warn ct ops ops' k, destroyed (proc_run warn ct ops) k ->
  by_listener k (p_log (proc_run warn ct (ops ++ ops'))) = by_listener k (p_log (proc_run warn ct ops)).
Proof.
  intros warn ct ops ops' k D. rewrite proc_app. revert D. generalize (proc_run warn ct ops). induction ops' as [|o ops' IH]; intros p D; [reflexivity|]. cbn [fold_left]. destruct (gone_step warn p o k D) as (D' & E). rewrite (IH _ D'), E. reflexivity.
Qed.

(** ** waiting *)
Theorem waits_flag : forall warn ct ops, p_crashed (proc_run warn ct ops) = false -> p_waits (proc_run warn ct ops) = waits_allowed ops.
Proof.
  intros warn ct ops. induction ops as [|o ops IH] using rev_ind; intros C; [reflexivity|]. rewrite proc_snoc in *. unfold waits_allowed in *. rewrite fold_left_app. cbn [fold_left].
  set (p := proc_run warn ct ops) in *. clearbody p.
  assert (A : p_crashed p = false) by (unfold proc_step in C; destruct (p_crashed p) eqn:E; [congruence|reflexivity]). specialize (IH A). rewrite <- IH. clear IH C. unfold proc_step. rewrite A.
  assert (W : forall k v now own, p_waits (worked warn p k v now own) = p_waits p) by (intros; unfold worked; destruct (work_step _ _ _ _ _) as [[[? ?] ?] ?]; reflexivity).
  destruct o as [[|]|j who st msg|j i|j now|j now|j|j|b]; try reflexivity; destruct (nth_error (p_slots p) j) as [[v|]|]; try reflexivity; destruct (v_where v) as [| |[|n]|]; try reflexivity; try apply W; destruct (v_work v); try reflexivity; destruct (v_run v); reflexivity.
Qed.

(** ** order *)
Lemma sub_refl : forall {A} (l : list A), subsequence l l.
Proof. induction l; constructor; assumption. Qed.
Lemma sub_app : forall {A} (a b c d : list A), subsequence a b -> subsequence c d -> subsequence (a ++ c) (b ++ d).
Proof.
  intros A a b c d H. induction H as [l|x l l' H IH|x l l' H IH]; intros X; cbn [app]; [|constructor; apply IH, X..]. induction l as [|y l IH]; [exact X|cbn [app]; apply sub_skip, IH].
Qed.
Lemma sub_trans : forall {A} (b c : list A), subsequence b c -> forall a, subsequence a b -> subsequence a c.
Proof.
  intros A b c H. induction H as [l|x l l' H IH|x l l' H IH]; intros a X.
  - inversion X; subst. constructor.
  - inversion X; subst; [constructor|apply sub_take, IH; assumption|apply sub_skip, IH; assumption].
  - apply sub_skip, IH, X.
Qed.
Lemma sub_drop : forall {A} i (l : list A), subsequence (drop_nth i l) l.
Proof. unfold drop_nth. induction i as [|i IH]; intros [|x l]; cbn [firstn skipn app]; [constructor|apply sub_skip, sub_refl|constructor|apply sub_take, IH]. Qed.
Lemma queued_app : forall k ops ops', queued_for k (ops ++ ops') = queued_for k ops ++ queued_for k ops'.
Proof. intros. apply flat_map_app. Qed.
Notation queue_at := (@waiting S).
Lemma work_order : forall warn s k v now s' v' notes out, work_step warn s k v now = (s', v', notes, out) -> map message_of (taken k notes) ++ v_queue v' = v_queue v.
Proof.
  intros warn s k v now s' v' notes out H. unfold work_step in H. destruct (v_work v) as [[[who st] [|m ms]]|].
  - injection H as _ <- <- _. reflexivity.
  - destruct (setTransform s m who st) as [s1 r]. destruct r as [b|[] e|]; injection H as _ <- <- _; reflexivity.
  - destruct (v_queue v) as [|[[who st] msg] q] eqn:Eq; [injection H as _ <- <- _; exact Eq|].
    assert (T : forall tl, (forall x : note, In x tl -> x = Cleared k) -> map message_of (taken k (Took k (mkArrival now who st msg) :: tl)) = [(who, st, msg)]).
    { intros tl X. unfold taken. cbn [flat_map]. rewrite Nat.eqb_refl. cbn [app map message_of a_who a_static a_msg]. f_equal. induction tl as [|y tl IH]; [reflexivity|]. cbn [flat_map]. rewrite (X y (or_introl eq_refl)). apply IH. intros x Hx. apply X. right. exact Hx. }
    destruct (if (now <? v_last v) && warn then _ else _); injection H as _ <- <- _; rewrite T; try reflexivity; try (intros x []). destruct (now <? v_last v); [intros x [<-|[]]; reflexivity|intros x []].
Qed.
Theorem in_order : forall warn ct ops k, subsequence (map message_of (taken k (p_log (proc_run warn ct ops))) ++ queue_at (proc_run warn ct ops) k) (queued_for k ops).
Proof.
  intros warn ct ops k. induction ops as [|o ops IH] using rev_ind; [destruct k; constructor|]. rewrite proc_snoc, queued_app. set (p := proc_run warn ct ops) in *. clearbody p.
  assert (Keep : subsequence (map message_of (taken k (p_log p)) ++ queue_at p k) (queued_for k ops ++ queued_for k [o])) by (rewrite <- (app_nil_r (_ ++ _)); apply sub_app; [exact IH|constructor]).
  assert (W : forall j v now own, nth_error (p_slots p) j = Some (Alive v) -> subsequence (map message_of (taken k (p_log (worked warn p j v now own))) ++ queue_at (worked warn p j v now own) k) (queued_for k ops ++ queued_for k [o])).
  { intros j v now own E. unfold worked. destruct (work_step warn (p_core p) j v now) as [[[s v'] notes] out] eqn:Ew. unfold waiting. cbn [p_slots p_log]. rewrite taken_app, map_app. destruct (Nat.eq_dec k j) as [<-|N].
    - rewrite (set_slot_same _ _ _ _ E). rewrite <- app_assoc, (work_order _ _ _ _ _ _ _ _ _ Ew). unfold waiting in Keep. rewrite E in Keep. exact Keep.
    - rewrite set_slot_other by exact N. rewrite (proj2 (by_none j k notes N (work_notes _ _ _ _ _ _ _ _ _ Ew))), app_nil_r. exact Keep. }
  assert (U : forall j v v', nth_error (p_slots p) j = Some (Alive v) -> (j = k -> subsequence (v_queue v') (v_queue v ++ queued_for k [o])) -> subsequence (map message_of (taken k (p_log (put_slot p j v'))) ++ queue_at (put_slot p j v') k) (queued_for k ops ++ queued_for k [o])).
  { intros j v v' E X. unfold waiting. cbn [put_slot p_slots p_log]. destruct (Nat.eq_dec k j) as [<-|N]; [|rewrite set_slot_other by exact N; exact Keep]. rewrite (set_slot_same _ _ _ _ E). unfold waiting in IH. rewrite E in IH.
    eapply sub_trans; [apply sub_app; [exact IH|apply sub_refl]|]. rewrite <- app_assoc. apply sub_app; [apply sub_refl|apply X; reflexivity]. }
  assert (Same : forall l : list (string * bool * list tmsg), subsequence l (l ++ queued_for k [o])) by (intros l; rewrite <- (app_nil_r l) at 1; apply sub_app; [apply sub_refl|constructor]).
  unfold proc_step. destruct (p_crashed p); [exact Keep|]. destruct o as [sp|j who st msg|j i|j now|j now|j|j|b]; try exact Keep.
  - unfold waiting in *. cbn [p_slots p_log]. destruct (Nat.lt_trichotomy k (List.length (p_slots p))) as [L|[->|L]]; [rewrite nth_error_app1 by exact L; exact Keep|rewrite nth_error_app2, Nat.sub_diag by lia; cbn [nth_error v_queue]; rewrite (proj2 (nth_error_None _ _)) in Keep by lia; exact Keep|].
    rewrite nth_error_app2 by lia. rewrite (proj2 (nth_error_None [_] _)) by (cbn; lia). rewrite (proj2 (nth_error_None _ _)) in Keep by lia. exact Keep.
  - destruct (nth_error (p_slots p) j) as [[v|]|] eqn:E; try exact Keep. apply (U j v); [exact E|]. intros ->. cbn [v_queue queued_for flat_map]. rewrite Nat.eqb_refl. apply sub_refl.
  - destruct (nth_error (p_slots p) j) as [[v|]|] eqn:E; try exact Keep. apply (U j v); [exact E|]. intros _. cbn [v_queue]. eapply sub_trans; [apply Same|apply sub_drop].
  - destruct (nth_error (p_slots p) j) as [[v|]|] eqn:E; try exact Keep. destruct (v_where v) as [| |[|n]|]; try exact Keep; [apply (U j v); [exact E|intros _; apply Same]..|apply W, E].
  - destruct (nth_error (p_slots p) j) as [[v|]|] eqn:E; try exact Keep. destruct (v_where v) as [| |[|n]|]; try exact Keep. apply W, E.
  - destruct (nth_error (p_slots p) j) as [[v|]|] eqn:E; try exact Keep. apply (U j v); [exact E|intros _; apply Same].
  - assert (G : forall v, nth_error (p_slots p) j = Some (Alive v) -> subsequence (map message_of (taken k (p_log p)) ++ queue_at (mkProc (p_core p) (p_waits p) (set_slot (p_slots p) j Gone) (p_log p) false) k) (queued_for k ops ++ queued_for k [EndDestroy j])).
    { intros v E. unfold waiting in *. cbn [p_slots]. destruct (Nat.eq_dec k j) as [<-|N]; [|rewrite set_slot_other by exact N; exact Keep]. rewrite (set_slot_same _ _ _ _ E). rewrite E in Keep. eapply sub_trans; [exact Keep|]. apply sub_app; [apply sub_refl|constructor]. }
    destruct (nth_error (p_slots p) j) as [[v|]|] eqn:E; try exact Keep. specialize (G v eq_refl). destruct (v_where v) as [| |n|]; try exact Keep; [destruct (v_work v); try exact Keep|]; destruct (v_run v); try exact Keep; exact G.
Qed.
Lemma log_known : forall warn ct ops x, In x (p_log (proc_run warn ct ops)) -> (note_by x < List.length (p_slots (proc_run warn ct ops)))%nat.
Proof.
  intros warn ct ops. induction ops as [|o ops IH] using rev_ind; [intros x []|]. rewrite proc_snoc. set (p := proc_run warn ct ops) in *. clearbody p.
  assert (W : forall j v now own, nth_error (p_slots p) j = Some (Alive v) -> forall x, In x (p_log (worked warn p j v now own)) -> (note_by x < List.length (p_slots (worked warn p j v now own)))%nat).
  { intros j v now own E x. unfold worked. destruct (work_step warn (p_core p) j v now) as [[[s v'] notes] out] eqn:Ew. cbn [p_slots p_log]. rewrite set_slot_length. intros H. apply in_app_iff in H as [H|H]; [exact (IH x H)|]. rewrite (work_notes _ _ _ _ _ _ _ _ _ Ew x H). apply nth_error_Some. rewrite E. discriminate. }
  unfold proc_step. destruct (p_crashed p); [exact IH|]. destruct o as [sp|j who st msg|j i|j now|j now|j|j|b]; try exact IH.
  - cbn [p_slots p_log]. intros x H. rewrite app_length. pose proof (IH x H). cbn. lia.
  - destruct (nth_error (p_slots p) j) as [[v|]|] eqn:E; try exact IH. cbn [put_slot p_slots p_log]. rewrite set_slot_length. exact IH.
  - destruct (nth_error (p_slots p) j) as [[v|]|] eqn:E; try exact IH. cbn [put_slot p_slots p_log]. rewrite set_slot_length. exact IH.
  - destruct (nth_error (p_slots p) j) as [[v|]|] eqn:E; try exact IH. destruct (v_where v) as [| |[|n]|]; try exact IH; [cbn [put_slot p_slots p_log]; rewrite set_slot_length; exact IH..|apply W, E].
  - destruct (nth_error (p_slots p) j) as [[v|]|] eqn:E; try exact IH. destruct (v_where v) as [| |[|n]|]; try exact IH. apply W, E.
  - destruct (nth_error (p_slots p) j) as [[v|]|] eqn:E; try exact IH. cbn [put_slot p_slots p_log]. rewrite set_slot_length. exact IH.
  - destruct (nth_error (p_slots p) j) as [[v|]|] eqn:E; try exact IH. destruct (v_where v) as [| |n|]; try exact IH; [destruct (v_work v); try exact IH|]; destruct (v_run v); try exact IH; cbn [p_slots p_log]; rewrite set_slot_length; exact IH.
Qed.
Lemma taken_by : forall k (l : list note), (forall x, In x l -> note_by x <> k) -> taken k l = [].
Proof.
  intros k. induction l as [|x l IH]; intros H; [reflexivity|]. unfold taken in *. cbn [flat_map]. rewrite (IH (fun y Hy => H y (or_intror Hy))). pose proof (H x (or_introl eq_refl)) as N. destruct x; cbn [note_by] in N; try reflexivity. rewrite (proj2 (Nat.eqb_neq _ _) N). reflexivity.
Qed.
Lemma crash_stays : forall warn p o, p_crashed (proc_step warn p o) = false -> p_crashed p = false.
Proof. intros warn p o C. unfold proc_step in C. destruct (p_crashed p) eqn:E; [congruence|reflexivity]. Qed.
Lemma slots_grow : forall warn p o, (List.length (p_slots p) <= List.length (p_slots (proc_step warn p o)))%nat.
Proof.
  intros warn p o. unfold proc_step. destruct (p_crashed p); [lia|].
  assert (W : forall k v now own, List.length (p_slots (worked warn p k v now own)) = List.length (p_slots p)) by (intros; unfold worked; destruct (work_step _ _ _ _ _) as [[[? ?] ?] ?]; apply set_slot_length).
  assert (U : forall k v, List.length (p_slots (put_slot p k v)) = List.length (p_slots p)) by (intros; apply set_slot_length).
  destruct o as [sp|j who st msg|j i|j now|j now|j|j|b]; try (cbn [p_slots]; rewrite ?app_length; lia); destruct (nth_error (p_slots p) j) as [[v|]|]; try lia; try (rewrite U; lia); destruct (v_where v) as [| |[|n]|]; rewrite ?W, ?U; try lia; destruct (v_work v); try lia; destruct (v_run v); try lia; cbn [p_slots]; rewrite set_slot_length; lia.
Qed.
Lemma fold_grow : forall warn l p, (List.length (p_slots p) <= List.length (p_slots (fold_left (proc_step warn) l p)))%nat.
Proof. intros warn. induction l as [|o l IH]; intros p; [apply Nat.le_refl|]. cbn [fold_left]. eapply Nat.le_trans; [apply (slots_grow warn)|apply IH]. Qed.
Lemma fold_crash : forall warn l p, p_crashed (fold_left (proc_step warn) l p) = false -> p_crashed p = false.
Proof. intros warn. induction l as [|o l IH]; intros p C; [exact C|]. cbn [fold_left] in C. eapply crash_stays, IH, C. Qed.
Theorem nothing_lost : forall warn ct ops sp ops' k v, k = List.length (p_slots (proc_run warn ct ops)) -> no_loss k ops' ->
  let p := proc_run warn ct (ops ++ NewListener sp :: ops') in p_crashed p = false -> nth_error (p_slots p) k = Some (Alive v) -> map message_of (taken k (p_log p)) ++ v_queue v = queued_for k ops'.
Proof.
  intros warn ct ops sp ops' k v Ek Nl p Cr E. subst p.
  change (NewListener sp :: ops') with ([@NewListener S sp] ++ ops') in Cr, E |- *. rewrite app_assoc in Cr, E |- *. rewrite proc_app in Cr, E |- *. set (p0 := proc_run warn ct (ops ++ [NewListener sp])) in *.
  assert (Base : p_crashed p0 = false -> (exists v0, nth_error (p_slots p0) k = Some (Alive v0) /\ v_queue v0 = []) /\ taken k (p_log p0) = []).
  { unfold p0. rewrite proc_snoc. intros C. apply crash_stays in C. unfold proc_step. rewrite C. cbn [p_slots p_log]. split.
    - eexists. split; [rewrite nth_error_app2, Ek, Nat.sub_diag by lia; reflexivity|reflexivity].
    - apply taken_by. intros x Hx. pose proof (log_known _ _ _ _ Hx). lia. }
  clearbody p0. clear Ek. revert v Nl Cr E. induction ops' as [|o ops' IH] using rev_ind; intros v Nl Cr E.
  - cbn [fold_left] in *. destruct (Base Cr) as ((v0 & E0 & Q) & T). rewrite E0 in E. injection E as <-. rewrite T, Q. reflexivity.
  - rewrite fold_left_app in Cr, E |- *. cbn [fold_left] in Cr, E |- *. rewrite queued_app. set (p := fold_left (proc_step warn) ops' p0) in *. pose proof (crash_stays _ _ _ Cr) as Cp.
    assert (Nl' : no_loss k ops') by (intros i H; apply (Nl i), in_app_iff; left; exact H).
    assert (Ex : exists w, nth_error (p_slots p) k = Some w).
    { destruct (Base (fold_crash warn ops' p0 Cp)) as ((v0 & E0 & _) & _). assert (L : (k < List.length (p_slots p0))%nat) by (apply nth_error_Some; rewrite E0; discriminate). pose proof (fold_grow warn ops' p0) as G. fold p in G.
      destruct (nth_error (p_slots p) k) as [w|] eqn:X; [eauto|]. apply nth_error_None in X. lia. }
     destruct Ex as ([w|] & Ew); [|exfalso; destruct (gone_step warn p o k Ew) as (D & _); unfold destroyed in D; congruence].
    specialize (IH w Nl' Cp Ew). clearbody p. clear Base Nl'. unfold proc_step in E, Cr |- *. rewrite Cp in E |- *. rewrite <- IH. clear IH.
    assert (W : forall j u now own, nth_error (p_slots p) j = Some (Alive u) -> nth_error (p_slots (worked warn p j u now own)) k = Some (Alive v) -> map message_of (taken k (p_log (worked warn p j u now own))) ++ v_queue v = map message_of (taken k (p_log p)) ++ v_queue w).
    { intros j u now own Eu. unfold worked. destruct (work_step warn (p_core p) j u now) as [[[s v'] notes] out] eqn:Es. cbn [p_slots p_log]. rewrite taken_app, map_app, <- app_assoc. destruct (Nat.eq_dec k j) as [<-|N].
      - rewrite (set_slot_same _ _ _ _ Eu). intros X. injection X as <-. rewrite (work_order _ _ _ _ _ _ _ _ _ Es). congruence.
      - rewrite set_slot_other by exact N. intros X. rewrite (proj2 (by_none j k notes N (work_notes _ _ _ _ _ _ _ _ _ Es))). cbn [map app]. congruence. }
    assert (U : forall j u v', nth_error (p_slots p) j = Some (Alive u) -> nth_error (p_slots (put_slot p j v')) k = Some (Alive v) -> (j = k /\ v = v' /\ w = u) \/ (j <> k /\ v = w)).
    { intros j u v' Eu X. cbn [put_slot p_slots] in X. destruct (Nat.eq_dec k j) as [<-|N]; [left; rewrite (set_slot_same _ _ _ _ Eu) in X; split; [reflexivity|split; congruence]|right; rewrite set_slot_other in X by exact N; split; [congruence|congruence]]. }
    assert (Same : nth_error (p_slots p) k = Some (Alive v) -> map message_of (taken k (p_log p)) ++ v_queue v = (map message_of (taken k (p_log p)) ++ v_queue w) ++ []) by (intros X; rewrite app_nil_r; congruence).
    destruct o as [sp'|j who st msg|j i|j now|j now|j|j|b]; cbn [queued_for flat_map]; try (apply Same, E).
    + apply Same. cbn [p_slots] in E. rewrite nth_error_app1 in E; [exact E|]. apply nth_error_Some. rewrite Ew. discriminate.
    + rewrite app_nil_r. destruct (nth_error (p_slots p) j) as [[u|]|] eqn:Eu; [|destruct (Nat.eqb_spec j k) as [->|_]; [congruence|apply Same, E]..]. destruct (U _ _ _ Eu E) as [(-> & -> & ->)|(N & ->)]; cbn [put_slot p_log v_queue].
      * rewrite Nat.eqb_refl, app_assoc. reflexivity.
      * rewrite (proj2 (Nat.eqb_neq _ _) N), app_nil_r. reflexivity.
    + destruct (nth_error (p_slots p) j) as [[u|]|] eqn:Eu; try (apply Same, E). destruct (U _ _ _ Eu E) as [(-> & _)|(N & ->)]; [exfalso; apply (Nl i), in_app_iff; right; left; reflexivity|]. rewrite app_nil_r. reflexivity.
    + destruct (nth_error (p_slots p) j) as [[u|]|] eqn:Eu; try (apply Same, E). destruct (v_where u) as [| |[|n]|]; try (apply Same, E).
      * destruct (U _ _ _ Eu E) as [(-> & -> & ->)|(N & ->)]; rewrite app_nil_r; reflexivity.
      * destruct (U _ _ _ Eu E) as [(-> & -> & ->)|(N & ->)]; rewrite app_nil_r; reflexivity.
      * rewrite app_nil_r. eapply W; eassumption.
    + destruct (nth_error (p_slots p) j) as [[u|]|] eqn:Eu; try (apply Same, E). destruct (v_where u) as [| |[|n]|]; try (apply Same, E). rewrite app_nil_r. eapply W; eassumption.
    + destruct (nth_error (p_slots p) j) as [[u|]|] eqn:Eu; try (apply Same, E). destruct (U _ _ _ Eu E) as [(-> & -> & ->)|(N & ->)]; rewrite app_nil_r; reflexivity.
    + assert (G : nth_error (set_slot (p_slots p) j Gone) k = Some (Alive v) -> nth_error (p_slots p) k = Some (Alive v)) by (destruct (Nat.eq_dec k j) as [<-|N]; [intros X; rewrite (set_slot_same _ _ _ _ Ew) in X; discriminate X|rewrite set_slot_other by exact N; auto]).
      destruct (nth_error (p_slots p) j) as [[u|]|] eqn:Eu; try (apply Same, E). destruct (v_where u) as [| |n|]; try (apply Same, E); [destruct (v_work u); try (apply Same, E)|]; destruct (v_run u); try (apply Same, E); apply Same, G, E.
Qed.

(** ** join() returns *)
Fixpoint queue_small (B : nat) (q : list (string * bool * list tmsg)) : Prop := match q with [] => True | x :: q' => (List.length (snd x) <= B)%nat /\ queue_small B q' end.
Lemma small_all : forall B (q : list (string * bool * list tmsg)), queue_small B q <-> forall x, In x q -> (List.length (snd x) <= B)%nat.
Proof. intros B. induction q as [|x q IH]; cbn [queue_small In]; [split; [intros _ x []|auto]|]. rewrite IH. split; [intros (A & H) y [<-|Hy]; auto|intros H; split; [apply H; left; reflexivity|intros y Hy; apply H; right; exact Hy]]. Qed.
Definition to_go (B : nat) v : nat :=
  match v_where v with
  | NoThread | Exited => 0
  | Testing => 1
  | Calling n => 2 + match v_work v with None => n * (B + 2) | Some (_, _, ms) => (n - 1) * (B + 2) + (List.length ms + 1) end
  end.
Record stopping (B : nat) v : Prop := mkStopping {
  sg_run : v_run v = false;
  sg_thread : v_where v <> NoThread;
  sg_queue : queue_small B (v_queue v);
  sg_work : match v_work v with Some (_, _, ms) => (List.length ms <= B)%nat /\ (match v_where v with Calling (Datatypes.S _) => True | _ => False end) | None => True end }.
Lemma called_back_stopping : forall B v, stopping B v -> (match v_where v with Calling (Datatypes.S _) => True | _ => False end) -> stopping B (called_back v) /\ (to_go B (called_back v) < to_go B v)%nat.
Proof.
  intros B v [Rn Th Qu Wo] Wh. destruct v as [rn wh la qu wo]. unfold called_back, to_go in *. cbn [v_run v_where v_last v_queue v_work] in *. destruct wh as [| |[|n]|]; try contradiction. split; [constructor; cbn; [exact Rn|discriminate|exact Qu|exact I]|].
  destruct wo as [[[who st] ms]|]; nia.
Qed.
Lemma stopping_work : forall warn B s k v now s' v' notes out, stopping B v -> (match v_where v with Calling (Datatypes.S _) => True | _ => False end) -> work_step warn s k v now = (s', v', notes, out) ->
  stopping B v' /\ (to_go B v' < to_go B v)%nat.
Proof.
  intros warn B s k v now s' v' notes out Sg Wh H. pose proof (called_back_stopping B v Sg Wh) as Cb. unfold work_step in H. destruct (v_work v) as [[[who st] [|m ms]]|] eqn:Ew.
  - injection H as _ <- _ _. exact Cb.
  - destruct (setTransform s m who st) as [s1 r].
    assert (X : stopping B (mkLive (v_run v) (v_where v) (v_last v) (v_queue v) (Some (who, st, ms))) /\ (to_go B (mkLive (v_run v) (v_where v) (v_last v) (v_queue v) (Some (who, st, ms))) < to_go B v)%nat).
    { destruct Sg as [Rn Th Qu Wo]. rewrite Ew in Wo. cbn [List.length] in Wo. split; [constructor; cbn [v_run v_where v_queue v_work]; try assumption; split; [lia|exact Wh]|]. unfold to_go. cbn [v_where v_work]. rewrite Ew. destruct (v_where v) as [| |[|n]|]; try contradiction. cbn [List.length]. lia. }
    destruct r as [b|[] e|]; injection H as _ <- _ _; assumption.
  - destruct (v_queue v) as [|[[who st] msg] q] eqn:Eq; [injection H as _ <- _ _; exact Cb|].
    pose proof Sg as [Rn Th Qu Wo]. rewrite Eq in Qu. destruct Qu as (Lm & Qu). cbn [snd] in Lm.
    destruct (if (now <? v_last v) && warn then _ else _); injection H as _ <- _ _.
    + split; [constructor; cbn [v_run v_where v_queue v_work]; try assumption; split; assumption|]. unfold to_go. cbn [v_where v_work]. rewrite Ew. destruct (v_where v) as [| |[|n]|]; try contradiction. replace (Datatypes.S n - 1)%nat with n by lia. nia.
    + destruct v as [rn wh la qu wo]. cbn in *. subst. apply (called_back_stopping B (mkLive false wh la q None)); [constructor; cbn; auto|exact Wh].
    + destruct v as [rn wh la qu wo]. cbn in *. subst. apply (called_back_stopping B (mkLive false wh la q None)); [constructor; cbn; auto|exact Wh].
Qed.


(** what can happen to a living listener *)
Inductive evolves (warn : bool) p (k : nat) v : proc_op -> slot -> Prop :=
| ev_same : forall o, evolves warn p k v o (Alive v)
| ev_arrive : forall who st msg, evolves warn p k v (Arrive k who st msg) (Alive (mkLive (v_run v) (v_where v) (v_last v) (v_queue v ++ [(who, st, msg)]) (v_work v)))
| ev_lose : forall i, evolves warn p k v (Lose k i) (Alive (mkLive (v_run v) (v_where v) (v_last v) (drop_nth i (v_queue v)) (v_work v)))
| ev_test : forall now, v_where v = Testing -> evolves warn p k v (Step k now) (Alive (mkLive (v_run v) (if v_run v then Calling (List.length (v_queue v)) else Exited) (v_last v) (v_queue v) (v_work v)))
| ev_done : forall now, v_where v = Calling 0 -> evolves warn p k v (Step k now) (Alive (mkLive (v_run v) Testing (v_last v) (v_queue v) (v_work v)))
| ev_work : forall o now n s v' notes out, v_where v = Calling (Datatypes.S n) -> o = Step k now -> work_step warn (p_core p) k v now = (s, v', notes, out) -> evolves warn p k v o (Alive v')
| ev_spin : forall o now s v' notes out, v_where v = NoThread -> o = Spin k now -> work_step warn (p_core p) k v now = (s, v', notes, out) -> evolves warn p k v o (Alive v')
| ev_begin : evolves warn p k v (BeginDestroy k) (Alive (mkLive false (v_where v) (v_last v) (v_queue v) (v_work v)))
| ev_end : v_run v = false -> (v_where v = NoThread /\ v_work v = None) \/ v_where v = Exited -> evolves warn p k v (EndDestroy k) Gone.
Lemma alive_step : forall warn p o k v, p_crashed p = false -> nth_error (p_slots p) k = Some (Alive v) ->
  exists x, nth_error (p_slots (proc_step warn p o)) k = Some x /\ evolves warn p k v o x.
Proof.
  intros warn p o k v C E. unfold proc_step. rewrite C.
  assert (Keep : exists x, nth_error (p_slots p) k = Some x /\ evolves warn p k v o x) by (eexists; split; [exact E|constructor]).
  assert (W : forall j u now own, nth_error (p_slots p) j = Some (Alive u) ->
    (forall s v' notes out, j = k -> u = v -> work_step warn (p_core p) k v now = (s, v', notes, out) -> evolves warn p k v o (Alive v')) ->
    exists x, nth_error (p_slots (worked warn p j u now own)) k = Some x /\ evolves warn p k v o x).
  { intros j u now own Eu X. unfold worked. destruct (work_step warn (p_core p) j u now) as [[[s v'] notes] out] eqn:Ew. cbn [p_slots]. destruct (Nat.eq_dec k j) as [<-|N]; [|rewrite set_slot_other by exact N; exact Keep].
    rewrite (set_slot_same _ _ _ _ E). assert (u = v) by congruence. subst u. eexists. split; [reflexivity|]. eapply X; [reflexivity|reflexivity|exact Ew]. }
  assert (U : forall j u y, nth_error (p_slots p) j = Some (Alive u) -> (j = k -> u = v -> evolves warn p k v o y) -> exists x, nth_error (set_slot (p_slots p) j y) k = Some x /\ evolves warn p k v o x).
  { intros j u y Eu X. destruct (Nat.eq_dec k j) as [<-|N]; [|rewrite set_slot_other by exact N; exact Keep]. rewrite (set_slot_same _ _ _ _ E). eexists. split; [reflexivity|]. apply X; congruence. }
  destruct o as [sp|j who st msg|j i|j now|j now|j|j|b]; try exact Keep.
  - cbn [p_slots]. rewrite nth_error_app1; [exact Keep|]. apply nth_error_Some. rewrite E. discriminate.
  - destruct (nth_error (p_slots p) j) as [[u|]|] eqn:Eu; try exact Keep. apply (U j u); [exact Eu|]. intros -> ->. apply ev_arrive.
  - destruct (nth_error (p_slots p) j) as [[u|]|] eqn:Eu; try exact Keep. apply (U j u); [exact Eu|]. intros -> ->. apply ev_lose.
  - destruct (nth_error (p_slots p) j) as [[u|]|] eqn:Eu; try exact Keep. destruct (v_where u) as [| |[|n]|] eqn:Ew; try exact Keep.
    + apply (U j u); [exact Eu|]. intros -> ->. apply ev_test, Ew.
    + apply (U j u); [exact Eu|]. intros -> ->. apply ev_done, Ew.
    + apply W; [exact Eu|]. intros s v' notes out -> -> X. eapply ev_work; [exact Ew|reflexivity|exact X].
  - destruct (nth_error (p_slots p) j) as [[u|]|] eqn:Eu; try exact Keep. destruct (v_where u) as [| |[|n]|] eqn:Ew; try exact Keep.
    apply W; [exact Eu|]. intros s v' notes out -> -> X. eapply ev_spin; [exact Ew|reflexivity|exact X].
  - destruct (nth_error (p_slots p) j) as [[u|]|] eqn:Eu; try exact Keep. apply (U j u); [exact Eu|]. intros -> ->. apply ev_begin.
  - destruct (nth_error (p_slots p) j) as [[u|]|] eqn:Eu; try exact Keep. destruct (v_where u) as [| |n|] eqn:Ew; try exact Keep; [destruct (v_work u) eqn:Ewk; try exact Keep|]; destruct (v_run u) eqn:Er; try exact Keep; cbn [p_slots]; (apply (U j u); [exact Eu|]; intros -> ->; apply ev_end; auto).
Qed.
(** never more callbacks due than messages queued *)
Record tidy (B N : nat) v : Prop := mkTidy {
  td_calls : match v_where v with Calling n => (n <= N)%nat | _ => True end;
  td_length : (List.length (v_queue v) <= N)%nat;
  td_queue : queue_small B (v_queue v);
  td_work : match v_work v with Some (_, _, ms) => (List.length ms <= B)%nat /\ (match v_where v with NoThread | Calling (Datatypes.S _) => True | _ => False end) | None => True end }.
Lemma tidy_called : forall B N v q, tidy B N v -> (List.length q <= List.length (v_queue v))%nat -> queue_small B q -> tidy B N (called_back (mkLive (v_run v) (v_where v) (v_last v) q None)).
Proof.
  intros B N v q [Ca Le Qu Wo] L Q. unfold called_back. cbn [v_run v_where v_last v_queue v_work]. constructor; cbn [v_where v_queue v_work]; [|eapply Nat.le_trans; [exact L|exact Le]|exact Q|exact I]. destruct (v_where v) as [| |[|n]|]; auto. lia.
Qed.
Lemma called_none : forall v, called_back v = called_back (mkLive (v_run v) (v_where v) (v_last v) (v_queue v) None).
Proof. reflexivity. Qed.
Lemma tidy_work : forall warn B N s k v now s' v' notes out, tidy B N v -> (match v_where v with NoThread | Calling (Datatypes.S _) => True | _ => False end) -> work_step warn s k v now = (s', v', notes, out) -> tidy B N v'.
Proof.
  intros warn B N s k v now s' v' notes out T Wh H. pose proof T as [Ca Le Qu Wo].
  assert (Cb : tidy B N (called_back v)) by (rewrite called_none; apply tidy_called; [exact T|apply Nat.le_refl|exact Qu]).
  unfold work_step in H. destruct (v_work v) as [[[who st] [|m ms]]|] eqn:Ew.
  - injection H as _ <- _ _. exact Cb.
  - destruct (setTransform s m who st) as [s1 r]. cbn [List.length] in Wo.
    assert (X : tidy B N (mkLive (v_run v) (v_where v) (v_last v) (v_queue v) (Some (who, st, ms)))) by (constructor; cbn [v_where v_queue v_work]; try assumption; split; [lia|exact Wh]).
    destruct r as [b|[] e|]; injection H as _ <- _ _; assumption.
  - destruct (v_queue v) as [|[[who st] msg] q] eqn:Eq; [injection H as _ <- _ _; exact Cb|]. destruct Qu as (Lm & Qu). cbn [snd] in Lm. cbn [List.length] in Le.
    destruct (if (now <? v_last v) && warn then _ else _); injection H as _ <- _ _; [|apply tidy_called; [exact T|rewrite Eq; apply Nat.le_succ_diag_r|exact Qu]..].
    constructor; cbn [v_where v_queue v_work]; try assumption; [exact (Nat.le_trans _ _ _ (Nat.le_succ_diag_r _) Le)|split; assumption].
Qed.
Lemma small_app : forall B (q q' : list (string * bool * list tmsg)), queue_small B q -> queue_small B q' -> queue_small B (q ++ q').
Proof. intros B q q' H H'. apply small_all. intros x Hx. apply in_app_iff in Hx as [Hx|Hx]; [exact (proj1 (small_all _ _) H x Hx)|exact (proj1 (small_all _ _) H' x Hx)]. Qed.
Lemma drop_length : forall {A} (l : list A) i, (List.length (drop_nth i l) <= List.length l)%nat.
Proof. unfold drop_nth. induction l as [|y l IH]; intros [|i]; cbn [firstn skipn app List.length]; try lia. apply le_n_S, (IH i). Qed.
Lemma tidy_more : forall B N N' v, (N <= N')%nat -> tidy B N v -> tidy B N' v.
Proof. intros B N N' v L [Ca Le Qu Wo]. constructor; try assumption; [destruct (v_where v); auto; exact (Nat.le_trans _ _ _ Ca L)|exact (Nat.le_trans _ _ _ Le L)]. Qed.
Lemma tidy_ev : forall warn B N p k v o v', tidy B N v -> queue_small B (queued_for k [o]) -> evolves warn p k v o (Alive v') -> tidy B (N + List.length (queued_for k [o])) v'.
Proof.
  intros warn B N p k v o v' T Sm Ev. pose proof T as [Ca Le Qu Wo]. inversion Ev; subst.
  - eapply tidy_more; [|exact T]. lia.
  - cbn [queued_for flat_map app] in Sm |- *. rewrite Nat.eqb_refl in Sm |- *. cbn [app List.length] in Sm |- *. constructor; cbn [v_where v_queue v_work].
    + destruct (v_where v); auto; lia.
    + rewrite app_length. exact (Nat.add_le_mono _ _ _ _ Le (Nat.le_refl 1)).
    + apply small_app; assumption.
    + exact Wo.
  - eapply (tidy_more B N); [lia|]. constructor; cbn [v_where v_queue v_work]; try assumption; [exact (Nat.le_trans _ _ _ (drop_length _ _) Le)|]. apply small_all. intros x Hx. apply (proj1 (small_all _ _) Qu), (drop_sub _ _ _ Hx).
  - match goal with H : v_where v = Testing |- _ => rename H into Hw end. eapply (tidy_more B N); [lia|]. rewrite Hw in Wo. constructor; cbn [v_where v_queue v_work]; try assumption; [destruct (v_run v); [exact Le|exact I]|]. destruct (v_work v) as [[[? ?] ?]|]; [destruct Wo as (_ & [])|exact I].
  - match goal with H : v_where v = Calling 0 |- _ => rename H into Hw end. eapply (tidy_more B N); [lia|]. rewrite Hw in Wo. constructor; cbn [v_where v_queue v_work]; try assumption; try exact I.
  - eapply (tidy_more B N); [lia|]. match goal with H : work_step _ _ _ _ _ = _ |- _ => eapply tidy_work; [exact T| |exact H] end. match goal with H : v_where v = _ |- _ => rewrite H; exact I end.
  - eapply (tidy_more B N); [lia|]. match goal with H : work_step _ _ _ _ _ = _ |- _ => eapply tidy_work; [exact T| |exact H] end. match goal with H : v_where v = _ |- _ => rewrite H; exact I end.
  - eapply (tidy_more B N); [lia|]. constructor; assumption.
Qed.
Lemma tidy_run : forall warn ct B ops k v, queue_small B (queued_for k ops) -> p_crashed (proc_run warn ct ops) = false -> nth_error (p_slots (proc_run warn ct ops)) k = Some (Alive v) -> tidy B (List.length (queued_for k ops)) v.
Proof.
  intros warn ct B ops k. induction ops as [|o ops IH] using rev_ind; intros v Sm C E; [destruct k; discriminate E|]. rewrite proc_snoc in C, E. pose proof (crash_stays _ _ _ C) as C0. rewrite queued_app in Sm |- *. rewrite app_length.
  assert (Sm1 : queue_small B (queued_for k ops)) by (apply small_all; intros x Hx; apply (proj1 (small_all _ _) Sm), in_app_iff; left; exact Hx).
  assert (Sm2 : queue_small B (queued_for k [o])) by (apply small_all; intros x Hx; apply (proj1 (small_all _ _) Sm), in_app_iff; right; exact Hx).
  set (p := proc_run warn ct ops) in *. destruct (nth_error (p_slots p) k) as [[u|]|] eqn:Eu.
  - destruct (alive_step warn p o k u C0 Eu) as (x & Ex & Ev). rewrite E in Ex. injection Ex as <-. exact (tidy_ev _ _ _ _ _ _ _ _ (IH u Sm1 C0 eq_refl) Sm2 Ev).
  - destruct (gone_step warn p o k Eu) as (D & _). unfold destroyed in D. congruence.
  - clear IH. unfold proc_step in E. rewrite C0 in E.
    assert (No : nth_error (p_slots p) k = Some (Alive v) -> tidy B (List.length (queued_for k ops) + List.length (queued_for k [o])) v) by (intros X; congruence).
    assert (U : forall j u y, nth_error (p_slots p) j = Some u -> nth_error (set_slot (p_slots p) j y) k = Some (Alive v) -> tidy B (List.length (queued_for k ops) + List.length (queued_for k [o])) v).
    { intros j u y Ej X. apply No. rewrite set_slot_other in X; [exact X|]. intros ->. congruence. }
    assert (W : forall j u now own, nth_error (p_slots p) j = Some (Alive u) -> nth_error (p_slots (worked warn p j u now own)) k = Some (Alive v) -> tidy B (List.length (queued_for k ops) + List.length (queued_for k [o])) v).
    { intros j u now own Ej. unfold worked. destruct (work_step warn (p_core p) j u now) as [[[s v'] notes] out]. cbn [p_slots]. eapply U, Ej. }
    destruct o as [sp|j who st msg|j i|j now|j now|j|j|b]; try (apply No, E).
    + cbn [p_slots] in E. apply nth_error_None in Eu. rewrite nth_error_app2 in E by exact Eu. destruct (k - List.length (p_slots p))%nat as [|z]; [|destruct z; discriminate E]. cbn [nth_error] in E. injection E as <-. constructor; cbn [v_where v_queue v_work List.length queue_small]; try exact I; [destruct sp; exact I|lia].
    + destruct (nth_error (p_slots p) j) as [[u|]|] eqn:Ej; try (apply No, E). exact (U _ _ _ Ej E).
    + destruct (nth_error (p_slots p) j) as [[u|]|] eqn:Ej; try (apply No, E). exact (U _ _ _ Ej E).
    + destruct (nth_error (p_slots p) j) as [[u|]|] eqn:Ej; try (apply No, E). destruct (v_where u) as [| |[|n]|]; try (apply No, E); [exact (U _ _ _ Ej E)..|exact (W _ _ _ _ Ej E)].
    + destruct (nth_error (p_slots p) j) as [[u|]|] eqn:Ej; try (apply No, E). destruct (v_where u) as [| |[|n]|]; try (apply No, E). exact (W _ _ _ _ Ej E).
    + destruct (nth_error (p_slots p) j) as [[u|]|] eqn:Ej; try (apply No, E). exact (U _ _ _ Ej E).
    + destruct (nth_error (p_slots p) j) as [[u|]|] eqn:Ej; try (apply No, E). destruct (v_where u) as [| |n|]; try (apply No, E); [destruct (v_work u); try (apply No, E)|]; destruct (v_run u); try (apply No, E); exact (U _ _ _ Ej E).
Qed.
Lemma to_go_bound : forall B N v, tidy B N v -> (to_go B v <= N * (B + 2) + 2)%nat.
Proof.
  intros B N v [Ca Le Qu Wo]. unfold to_go. destruct (v_where v) as [| |n|]; try lia. destruct (v_work v) as [[[who st] ms]|]; [|nia]. destruct Wo as (Lm & Wh). destruct n as [|n]; [contradiction|]. replace (Datatypes.S n - 1)%nat with n by lia. nia.
Qed.
Lemma stopping_ev : forall warn B p k v o x, stopping B v -> queue_small B (queued_for k [o]) -> evolves warn p k v o x -> 
  x = Gone \/ exists v', x = Alive v' /\ stopping B v' /\ (to_go B v' <= to_go B v)%nat.
Proof.
  intros warn B p k v o x Sg Sm Ev. pose proof Sg as [Rn Th Qu Wo]. inversion Ev; subst; try (left; reflexivity); right; eexists; (split; [reflexivity|]).
  - auto.
  - cbn [queued_for flat_map app] in Sm. rewrite Nat.eqb_refl in Sm. split; [constructor; cbn [v_run v_where v_queue v_work]; try assumption; apply small_app; assumption|]. unfold to_go. cbn [v_where v_work]. lia.
  - split; [constructor; cbn [v_run v_where v_queue v_work]; try assumption; apply small_all; intros y Hy; apply (proj1 (small_all _ _) Qu), (drop_sub _ _ _ Hy)|]. unfold to_go. cbn [v_where v_work]. lia.
  - match goal with H : v_where v = Testing |- _ => rename H into Hw end. rewrite Rn. rewrite Hw in Wo. split; [constructor; cbn [v_run v_where v_queue v_work]; try assumption; try reflexivity; try discriminate; try (destruct (v_work v) as [[[? ?] ?]|]; [destruct Wo as (_ & [])|exact I])|]. unfold to_go. cbn [v_where v_work]. lia.
  - match goal with H : v_where v = Calling 0 |- _ => rename H into Hw end. rewrite Hw in Wo. split; [constructor; cbn [v_run v_where v_queue v_work]; try assumption; try discriminate; try (destruct (v_work v) as [[[? ?] ?]|]; [destruct Wo as (_ & [])|exact I])|]. unfold to_go. cbn [v_where v_work]. rewrite Hw. lia.
  - match goal with H : work_step _ _ _ _ _ = _ |- _ => rename H into X end. destruct (stopping_work _ _ _ _ _ _ _ _ _ _ Sg ltac:(match goal with H : v_where v = _ |- _ => rewrite H; exact I end) X) as (S' & L). split; [exact S'|lia].
  - exfalso. apply Th. assumption.
  - split; [constructor; cbn [v_run v_where v_queue v_work]; try assumption; reflexivity|]. unfold to_go. cbn [v_where v_work]. lia.
Qed.
Lemma stopping_turn : forall warn B p k v now, p_crashed p = false -> nth_error (p_slots p) k = Some (Alive v) -> stopping B v ->
  exists v', nth_error (p_slots (proc_step warn p (Step k now))) k = Some (Alive v') /\ stopping B v' /\ (to_go B v' <= to_go B v - 1)%nat.
Proof.
  intros warn B p k v now C E Sg. pose proof Sg as [Rn Th Qu Wo]. unfold proc_step. rewrite C, E. destruct (v_where v) as [| |[|n]|] eqn:Hw.
  - destruct (Th eq_refl).
  - cbn [put_slot p_slots]. eexists. split; [exact (set_slot_same _ _ _ _ E)|]. rewrite Rn. split; [constructor; cbn [v_run v_where v_queue v_work]; try assumption; try reflexivity; try discriminate; try (destruct (v_work v) as [[[? ?] ?]|]; [destruct Wo as (_ & [])|exact I])|]. unfold to_go. cbn [v_where v_work]. lia.
  - cbn [put_slot p_slots]. eexists. split; [exact (set_slot_same _ _ _ _ E)|]. split; [constructor; cbn [v_run v_where v_queue v_work]; try assumption; try discriminate; try (destruct (v_work v) as [[[? ?] ?]|]; [destruct Wo as (_ & [])|exact I])|]. unfold to_go. cbn [v_where v_work]. rewrite Hw. lia.
  - unfold worked. destruct (work_step warn (p_core p) k v now) as [[[s v'] notes] out] eqn:X. cbn [p_slots]. exists v'. split; [exact (set_slot_same _ _ _ _ E)|]. destruct (stopping_work _ _ _ _ _ _ _ _ _ _ Sg ltac:(rewrite Hw; exact I) X) as (S' & L). split; [exact S'|lia].
  - exists v. split; [exact E|]. split; [exact Sg|]. unfold to_go. rewrite Hw. lia.
Qed.
Lemma stopping_run : forall warn B ops2 p k v, queue_small B (queued_for k ops2) -> p_crashed (fold_left (proc_step warn) ops2 p) = false -> nth_error (p_slots p) k = Some (Alive v) -> stopping B v ->
  destroyed (fold_left (proc_step warn) ops2 p) k \/ exists v', nth_error (p_slots (fold_left (proc_step warn) ops2 p)) k = Some (Alive v') /\ stopping B v' /\ (to_go B v' <= to_go B v - turns k ops2)%nat.
Proof.
  intros warn B. induction ops2 as [|o ops2 IH] using rev_ind; intros p k v Sm C E Sg; [right; exists v; cbn; split; [exact E|split; [exact Sg|lia]]|].
  rewrite queued_app in Sm. rewrite fold_left_app in *. cbn [fold_left] in *. pose proof (crash_stays _ _ _ C) as C0.
  assert (Sm1 : queue_small B (queued_for k ops2)) by (apply small_all; intros x Hx; apply (proj1 (small_all _ _) Sm), in_app_iff; left; exact Hx).
  assert (Sm2 : queue_small B (queued_for k [o])) by (apply small_all; intros x Hx; apply (proj1 (small_all _ _) Sm), in_app_iff; right; exact Hx).
  assert (Tn : turns k (ops2 ++ [o]) = (turns k ops2 + turns k [o])%nat) by (unfold turns; rewrite filter_app, app_length; reflexivity). rewrite Tn.
  destruct (IH p k v Sm1 C0 E Sg) as [D|(v1 & E1 & S1 & L1)]; [left; exact (proj1 (gone_step warn _ o k D))|]. set (p1 := fold_left (proc_step warn) ops2 p) in *.
  assert (G : turns k [o] = 0%nat \/ exists now, o = Step k now /\ turns k [o] = 1%nat).
  { unfold turns. cbn [filter]. destruct o; auto. destruct (Nat.eqb_spec k0 k) as [->|_]; [right; eexists; split; reflexivity|left; reflexivity]. }
  destruct G as [G|(now & -> & G)]; rewrite G.
  - destruct (alive_step warn p1 o k v1 C0 E1) as (x & Ex & Ev). destruct (stopping_ev _ _ _ _ _ _ _ S1 Sm2 Ev) as [->|(v' & -> & S' & L')]; [left; exact Ex|right]. exists v'. split; [exact Ex|]. split; [exact S'|lia].
  - right. destruct (stopping_turn warn B p1 k v1 now C0 E1 S1) as (v' & E' & S' & L'). exists v'. split; [exact E'|]. split; [exact S'|lia].
Qed.
Theorem join_returns : forall warn ct B ops1 ops2 k, p_crashed (proc_run warn ct (ops1 ++ BeginDestroy k :: ops2 ++ [EndDestroy k])) = false ->
  (exists v, nth_error (p_slots (proc_run warn ct ops1)) k = Some (Alive v) /\ v_where v <> NoThread) ->
  (forall x, In x (queued_for k (ops1 ++ ops2)) -> (List.length (snd x) <= B)%nat) ->
  (List.length (queued_for k ops1) * (B + 2) + 2 <= turns k ops2)%nat ->
  destroyed (proc_run warn ct (ops1 ++ BeginDestroy k :: ops2 ++ [EndDestroy k])) k.
Proof.
  intros warn ct B ops1 ops2 k C (v & E & Nt) Sm Tn. rewrite queued_app in Sm.
  rewrite proc_app in C |- *. cbn [fold_left] in C |- *. rewrite fold_left_app in C |- *. cbn [fold_left] in C |- *. pose proof (crash_stays _ _ _ C) as C2. pose proof (fold_crash _ _ _ C2) as C1. pose proof (crash_stays _ _ _ C1) as C0.
  assert (T : tidy B (List.length (queued_for k ops1)) v) by (apply (tidy_run warn ct); [apply small_all; intros x Hx; apply Sm, in_app_iff; left; exact Hx|exact C0|exact E]).
  set (p := proc_run warn ct ops1) in *. set (p1 := proc_step warn p (BeginDestroy k)) in *.
  set (v1 := mkLive false (v_where v) (v_last v) (v_queue v) (v_work v)).
  assert (E1 : nth_error (p_slots p1) k = Some (Alive v1)) by (unfold p1, proc_step; rewrite C0, E; exact (set_slot_same _ _ _ _ E)).
  assert (T1 : tidy B (List.length (queued_for k ops1)) v1) by (destruct T; constructor; assumption).
  assert (S1 : stopping B v1) by (destruct T1 as [Ca Le Qu Wo]; constructor; [reflexivity|exact Nt|exact Qu|]; destruct (v_work v1) as [[[? ?] ?]|]; [|exact I]; destruct Wo as (A & W); split; [exact A|]; unfold v1 in *; cbn [v_where] in *; destruct (v_where v) as [| |[|n]|]; auto).
  pose proof (to_go_bound _ _ _ T1) as Bd.
  destruct (stopping_run warn B ops2 p1 k v1 ltac:(apply small_all; intros x Hx; apply Sm, in_app_iff; right; exact Hx) C2 E1 S1) as [D|(v' & E' & [Rn Th Qu Wo] & L)]; [exact (proj1 (gone_step warn _ _ k D))|].
  set (p2 := fold_left (proc_step warn) ops2 p1) in *. unfold destroyed, proc_step. rewrite C2, E'.
  assert (Ex : v_where v' = Exited) by (unfold to_go in L at 1; destruct (v_where v') as [| |n|]; [destruct (Th eq_refl)|lia|lia|reflexivity]).
  rewrite Ex, Rn. cbn [p_slots]. exact (set_slot_same _ _ _ _ E').
Qed.

(** ** what was put in came from messages *)
Lemma sub_in : forall {A} (l l' : list A), subsequence l l' -> forall x, In x l -> In x l'.
Proof. intros A l l' H. induction H as [l|y l l' H IH|y l l' H IH]; intros x Hx; [destruct Hx|destruct Hx as [<-|Hx]; [left; reflexivity|right; apply IH, Hx]|right; apply IH, Hx]. Qed.
Lemma queued_in : forall k ops who st msg, In (who, st, msg) (queued_for k ops) -> In (Arrive k who st msg) ops.
Proof.
  intros k ops who st msg H. unfold queued_for in H. apply in_flat_map in H as (o & Ho & H). destruct o; try destruct H. destruct (Nat.eqb_spec k0 k) as [->|_]; [|destruct H]. destruct H as [H|[]]. injection H as -> -> ->. exact Ho.
Qed.
Lemma owed_put : forall k (h : list arrival) last x, In x (owed_notes k last h) ->
  (exists a, In a h /\ x = Took k a) \/ x = Cleared k /\ goes_back last h \/ exists a m, In a h /\ In m (a_msg a) /\ x = Put k m (a_who a) (a_static a).
Proof.
  intros k. induction h as [|a h IH]; intros last x Hx; [destruct Hx|]. cbn [owed_notes] in Hx. destruct Hx as [<-|Hx]; [left; exists a; split; [left; reflexivity|reflexivity]|]. apply in_app_iff in Hx as [Hx|Hx].
  - right. left. destruct (Z.ltb_spec (a_now a) last) as [L|L]; [|destruct Hx]. destruct Hx as [<-|[]]. split; [reflexivity|left; exact L].
  - apply in_app_iff in Hx as [Hx|Hx].
    + right. right. apply in_map_iff in Hx as (m & <- & Hm). exists a, m. split; [left; reflexivity|]. split; [exact Hm|reflexivity].
    + destruct (IH _ _ Hx) as [(b & Hb & E)|[(E & G)|(b & m & Hb & E)]]; [left; exists b; split; [right; exact Hb|exact E]|right; left; split; [exact E|right; exact G]|right; right; exists b, m; split; [right; exact Hb|exact E]].
Qed.
Lemma note_owed : forall warn ct ops x, 0 <= ct < dur_bound -> calm ct ops -> let p := proc_run warn ct ops in In x (p_log p) ->
  In x (owed_notes (note_by x) 0 (taken (note_by x) (p_log p))).
Proof.
  intros warn ct ops x Hct Cm p Hx. destruct (calm_ok warn ct ops Hct Cm) as [_ _ _ Sl]. fold p in Sl. specialize (Sl (note_by x)).
  assert (By : In x (by_listener (note_by x) (p_log p))) by (apply filter_In; split; [exact Hx|destruct x; apply Nat.eqb_refl]).
  destruct (nth_error (p_slots p) (note_by x)) as [[v|]|].
  - destruct Sl as [Ow _ _ _ _ _]. rewrite <- Ow. apply in_app_iff. left. exact By.
  - rewrite <- Sl. exact By.
  - destruct Sl as (X & _). rewrite X in By. destruct By.
Qed.
Lemma taken_queued : forall warn ct ops k a, In a (taken k (p_log (proc_run warn ct ops))) -> In (Arrive k (a_who a) (a_static a) (a_msg a)) ops.
Proof.
  intros warn ct ops k a H. apply queued_in. apply (sub_in _ _ (in_order warn ct ops k)). apply in_app_iff. left. exact (in_map message_of _ a H).
Qed.
Theorem put_received : forall warn ct ops k m who st, 0 <= ct < dur_bound -> calm ct ops -> In (Put k m who st) (p_log (proc_run warn ct ops)) -> exists msg, In (Arrive k who st msg) ops /\ In m msg.
Proof.
  intros warn ct ops k m who st Hct Cm H. pose proof (note_owed warn ct ops _ Hct Cm H) as X. cbn [note_by] in X. destruct (owed_put _ _ _ _ X) as [(a & _ & E)|[(E & _)|(a & m' & Ha & Hm & E)]]; try discriminate E. injection E as <- -> ->.
  exists (a_msg a). split; [exact (taken_queued _ _ _ _ _ Ha)|exact Hm].
Qed.
Lemma steady_calls : forall warn ct ops, 0 <= ct < dur_bound -> calm ct ops -> steady_clocks (p_log (proc_run warn ct ops)) -> all_sets (calls_in (p_log (proc_run warn ct ops))).
Proof.
  intros warn ct ops Hct Cm St o Ho. unfold calls_in in Ho. apply in_flat_map in Ho as (x & Hx & Ho). destruct x as [k a|k|k m who st]; [destruct Ho| |destruct Ho as [<-|[]]; eauto].
  pose proof (note_owed warn ct ops _ Hct Cm Hx) as X. cbn [note_by] in X. destruct (owed_put _ _ _ _ X) as [(a & _ & E)|[(_ & G)|(a & m' & _ & _ & E)]]; [discriminate E|destruct (St k G)|discriminate E].
Qed.
Lemma put_calls : forall (log : list note) m st, (exists who, In (OSet m who st) (calls_in log)) <-> put_in log m st.
Proof.
  intros log m st. unfold put_in, calls_in. split.
  - intros (who & H). apply in_flat_map in H as (x & Hx & H). destruct x as [k a|k|k m' w' st']; [destruct H|destruct H as [H|[]]; discriminate H|destruct H as [H|[]]]. injection H as -> -> ->. eauto.
  - intros (k & who & H). exists who. apply in_flat_map. exists (Put k m who st). split; [exact H|left; reflexivity].
Qed.


(** ** one listener alone *)
Lemma owed_calls : forall k (h : list arrival) last, calls_in (owed_notes k last h) = flat_map core_calls (calls_for_all last h).
Proof.
  intros k. induction h as [|a h IH]; intros last; [reflexivity|]. cbn [owed_notes calls_for_all]. change (Took k a :: ?x) with ([Took k a] ++ x). rewrite flat_map_app, !calls_app, IH. cbn [calls_in flat_map app]. unfold calls_for. rewrite flat_map_app, <- app_assoc. f_equal; [destruct (a_now a <? last); reflexivity|]. f_equal.
  unfold calls_in. rewrite !flat_map_concat_map, !map_map. reflexivity.
Qed.
Theorem alone : forall warn ct ops k, 0 <= ct < dur_bound -> calm ct ops -> let p := proc_run warn ct ops in
  (forall x, In x (p_log p) -> note_by x = k) -> between_callbacks p k ->
  exists l' evs, listen_all warn (init_listener (init_buf ct)) (taken k (p_log p)) = (l', evs, Ok tt) /\ p_core p = b_core (l_buf l').
Proof.
  intros warn ct ops k Hct Cm p On Bc. destruct (calm_ok warn ct ops Hct Cm) as [_ _ _ Sl]. fold p in Sl.
  assert (Ow : p_log p = owed_notes k 0 (taken k (p_log p))).
  { specialize (Sl k). rewrite <- (by_all k (p_log p) On) at 1. destruct (nth_error (p_slots p) k) as [[v|]|] eqn:E; [|exact Sl|].
    - destruct Sl as [Ow _ _ _ _ _]. rewrite <- Ow. unfold rest_of. rewrite (Bc v E), app_nil_r. reflexivity.
    - destruct Sl as (X & Y). rewrite X, Y. reflexivity. }
  assert (Ha : forall a, In a (taken k (p_log p)) -> In (a_now a) (clocks ops) /\ Forall (in_range ct) (a_msg a)).
  { intros a Ha. split; [|apply Forall_forall; intros m Hm; eapply (proj1 Cm); [exact (taken_queued _ _ _ _ _ Ha)|exact Hm]]. revert Ha. unfold p. clear. revert a.
    induction ops as [|o ops IH] using rev_ind; intros a; [intros []|]. rewrite proc_snoc. set (q := proc_run warn ct ops) in *. unfold clocks in *. rewrite flat_map_app. intros H. apply in_app_iff.
    assert (W : forall j v now own, In a (taken k (p_log (worked warn q j v now own))) -> In a (taken k (p_log q)) \/ a_now a = now).
    { intros j v now own. unfold worked. destruct (work_step warn (p_core q) j v now) as [[[s v'] notes] out] eqn:Ew. cbn [p_log]. rewrite taken_app. intros X. apply in_app_iff in X as [X|X]; [left; exact X|right]. unfold work_step in Ew.
      destruct (v_work v) as [[[who st] [|m ms]]|].
      - injection Ew as _ _ <- _. destruct X.
      - destruct (setTransform (p_core q) m who st) as [s1 r]. destruct r as [b|[] e|]; injection Ew as _ _ <- _; destruct X.
      - destruct (v_queue v) as [|[[who st] msg] qq]; [injection Ew as _ _ <- _; destruct X|].
        assert (Y : In a (taken k (Took j (mkArrival now who st msg) :: (if now <? v_last v then [Cleared j] else []))) \/ In a (taken k [Took j (mkArrival now who st msg)])) by (destruct (if (now <? v_last v) && warn then _ else _); injection Ew as _ _ <- _; auto).
        unfold taken in Y. cbn [flat_map] in Y. assert (Z : In a (if Nat.eqb j k then [mkArrival now who st msg] else [])) by (destruct (now <? v_last v); cbn [flat_map app] in Y; rewrite ?app_nil_r in Y; destruct Y; assumption). destruct (Nat.eqb j k); [destruct Z as [<-|[]]; reflexivity|destruct Z]. }
    unfold proc_step in H. destruct (p_crashed q); [left; apply IH, H|]. destruct o as [sp|j who st msg|j i|j now|j now|j|j|b]; try (left; apply IH, H);
      destruct (nth_error (p_slots q) j) as [[v|]|]; try (left; apply IH, H); destruct (v_where v) as [| |[|n]|]; try (left; apply IH, H);
      try (apply W in H as [H|H]; [left; apply IH, H|right; left; symmetry; exact H]); destruct (v_work v); try (left; apply IH, H); destruct (v_run v); left; apply IH, H. }
  set (h := taken k (p_log p)) in *.
  assert (Sj : forall (h' : list arrival) last, (forall a, In a h' -> In (a_now a) (clocks ops)) -> last = 0 \/ In last (clocks ops) -> short_jumps last h').
  { induction h' as [|a h' IH]; intros last X L; [exact I|]. cbn [short_jumps]. split; [|apply IH; [intros b Hb; apply X; right; exact Hb|right; apply X; left; reflexivity]].
    destruct Cm as (_ & Vt & Dt). destruct L as [->|L]; [destruct (Vt _ (X a (or_introl eq_refl))); unfold dur_bound; lia|apply Dt; [exact L|apply X; left; reflexivity]]. }
  destruct (listen_all_ok h warn (init_listener (init_buf ct))) as (l' & evs & E).
  { cbn [l_buf init_listener]. exact (proj1 (reach_binv _ (rr_init ct Hct))). }
  { intros q []. }
  { vm_compute. reflexivity. }
  { cbn [l_last init_listener]. split; [apply Z.le_refl|vm_compute; reflexivity]. }
  { apply Forall_forall. intros a Ia. destruct (Ha a Ia) as (A & B). split; [apply (proj1 (proj2 Cm)), A|exact B]. }
  { apply Sj; [intros a Ia; apply Ha, Ia|left; reflexivity]. }
  exists l', evs. split; [exact E|]. destruct (listen_all_calls _ _ _ _ _ E) as (_ & log & R & _). apply req_run_core in R. cbn [l_buf init_listener l_last b_core init_buf] in R.
  rewrite R. unfold p. rewrite log_replays. fold p. rewrite Ow at 1. rewrite owed_calls. reflexivity.
Qed.
End P.
