(* Lemmas for PropsLocks.v: what the lock discipline of LockProofs.v means for schedules. *)
From Coq Require Import List Bool Arith Lia.
From Verif Require Import SpecLocks Locks LockProofs.
Import ListNotations.

Definition Pool := pool mutex var.

Record Inv (lvl : nat) (s : Pool) : Prop := {
  inv_chk : forall i t, s i = Some t -> chk lvl (holds t) (todo t) [];
  inv_nodup : forall i t, s i = Some t -> NoDup (map fst (holds t));
  inv_compat : forall i j t t' l m m', i <> j -> s i = Some t -> s j = Some t' ->
    In (l, m) (holds t) -> In (l, m') (holds t') -> compatible m m';
  inv_shared : forall i t l, s i = Some t -> In (l, Shared) (holds t) -> sharable l
}.
Definition finite (N : nat) (s : Pool) : Prop := forall i, N <= i -> s i = None.

Lemma set_same (s : Pool) i t : set s i t i = Some t.
Proof. unfold set. now rewrite Nat.eqb_refl. Qed.
Lemma set_other (s : Pool) i t j : j <> i -> set s i t j = s j.
Proof. intros H. unfold set. apply Nat.eqb_neq in H. now rewrite H. Qed.
Lemma set_cases (s : Pool) i t j t' : set s i t j = Some t' -> (j = i /\ t' = t) \/ (j <> i /\ s j = Some t').
Proof.
  destruct (Nat.eq_dec j i) as [->|N]; intros H.
  - rewrite set_same in H. injection H as <-. now left.
  - rewrite set_other in H by exact N. now right.
Qed.

(* the position of a lock in a list without duplicates *)
Lemma nodup_fst_mid (h1 h2 : held) l m m' : NoDup (map fst (h1 ++ (l, m) :: h2)) ->
  ~ In (l, m') h1 /\ ~ In (l, m') h2.
Proof.
  rewrite map_app. cbn [map fst]. intros H. apply NoDup_remove_2 in H.
  split; intros A; apply H, in_or_app; [left|right]; change l with (fst (l, m')); now apply in_map.
Qed.
Lemma head_position (h1 h2 h0 : held) l m m0 : NoDup (map fst (h1 ++ (l, m) :: h2)) ->
  h1 ++ (l, m) :: h2 = (l, m0) :: h0 -> h1 = [] /\ h2 = h0 /\ m = m0.
Proof.
  intros ND E. destruct h1 as [|[l1 m1] h1]; cbn [app] in E.
  - injection E as -> ->. auto.
  - exfalso. injection E as E1 E2 E3. subst l1 m1.
    destruct (nodup_fst_mid ((l, m0) :: h1) h2 l m m0 ND) as [A _]. apply A. now left.
Qed.

Lemma compatible_sym m m' : compatible m m' -> compatible m' m.
Proof. destruct m, m'; exact (fun x => x). Qed.

(* replacing the held list of one thread *)
Lemma inv_replace lvl (s : Pool) i t t' :
  Inv lvl s -> s i = Some t -> chk lvl (holds t') (todo t') [] -> NoDup (map fst (holds t')) ->
  (forall l m, In (l, m) (holds t') -> In (l, m) (holds t) \/
     ((m = Shared -> sharable l) /\
      forall j u m', j <> i -> s j = Some u -> In (l, m') (holds u) -> compatible m m')) ->
  Inv lvl (set s i t').
Proof.
  intros I Hi Hc Hn Hh. constructor.
  - intros j u Hj. apply set_cases in Hj. destruct Hj as [[-> ->]|[_ Hj]]; [exact Hc|exact (inv_chk _ _ I j u Hj)].
  - intros j u Hj. apply set_cases in Hj. destruct Hj as [[-> ->]|[_ Hj]]; [exact Hn|exact (inv_nodup _ _ I j u Hj)].
  - intros a b u u' l m m' Hab Ha Hb Hl Hl'.
    apply set_cases in Ha. apply set_cases in Hb.
    destruct Ha as [[-> ->]|[Na Ha]]; destruct Hb as [[-> ->]|[Nb Hb]]; [contradiction| | |].
    + destruct (Hh l m Hl) as [Ho|[_ Ho]]; [|exact (Ho b u' m' Nb Hb Hl')].
      exact (inv_compat _ _ I i b t u' l m m' Hab Hi Hb Ho Hl').
    + destruct (Hh l m' Hl') as [Ho|[_ Ho]]; [|apply compatible_sym; exact (Ho a u m Na Ha Hl)].
      exact (inv_compat _ _ I a i u t l m m' Hab Ha Hi Hl Ho).
    + exact (inv_compat _ _ I a b u u' l m m' Hab Ha Hb Hl Hl').
  - intros j u l Hj Hl. apply set_cases in Hj. destruct Hj as [[-> ->]|[_ Hj]]; [|exact (inv_shared _ _ I j u l Hj Hl)].
    destruct (Hh l Shared Hl) as [Ho|[Ho _]]; [exact (inv_shared _ _ I i t l Hi Ho)|now apply Ho].
Qed.

Lemma bound_notin l m h : bound (rank l) h -> ~ In (l, m) h.
Proof. intros H A. apply H in A. cbn [fst] in A. exact (rlt_irrefl _ A). Qed.

Lemma step_inv lvl (s s' : Pool) i : Inv lvl s -> step s i s' -> Inv lvl s'.
Proof.
  intros I St. destruct St as [h l m k Hi Hf|h1 h2 l k Hi Ho|h1 h2 l k Hi|h1 h2 l m k Hi|h x k Hi|h x k Hi];
    pose proof (inv_chk _ _ I i _ Hi) as Hc; pose proof (inv_nodup _ _ I i _ Hi) as Hn; cbn [holds todo chk] in Hc, Hn.
  - destruct Hc as (B & Sh & Hc). apply (inv_replace lvl s i _ _ I Hi); cbn [holds todo]; [exact Hc| |].
    + cbn [map fst]. constructor; [|exact Hn]. intros A. apply in_map_iff in A.
      destruct A as [[l' m'] [E A]]. cbn [fst] in E. subst l'. exact (bound_notin l m' h B A).
    + intros l' m' [E|A]; [|now left]. injection E as <- <-. right. split; [exact Sh|].
      intros j u m' _ Hj Hl. exact (Hf j u m' Hj Hl).
  - destruct Hc as (h0 & E & NS & Hc). destruct (head_position _ _ _ _ _ _ Hn E) as (-> & -> & _). cbn [app] in *.
    apply (inv_replace lvl s i _ _ I Hi); cbn [holds todo]; [exact Hc|exact Hn|].
    intros l' m' [E'|A]; [|left; now right]. injection E' as <- <-. right. split; [discriminate|].
    intros j u m' Nj Hj Hl. exfalso. apply Nj. exact (Ho j u m' Hj Hl).
  - destruct Hc as (h0 & E & Hc). destruct (head_position _ _ _ _ _ _ Hn E) as (-> & -> & _). cbn [app] in *.
    apply (inv_replace lvl s i _ _ I Hi); cbn [holds todo]; [exact Hc|exact Hn|].
    intros l' m' [E'|A]; [|left; now right]. injection E' as <- <-. right. split; [discriminate|].
    intros j u m' Nj Hj Hl. exfalso.
    pose proof (inv_compat _ _ I i j _ u l Exclusive m' (not_eq_sym Nj) Hi Hj (or_introl eq_refl) Hl) as F.
    destruct m'; exact F.
  - destruct Hc as (m0 & h0 & E & Hc). destruct (head_position _ _ _ _ _ _ Hn E) as (-> & -> & _). cbn [app] in *.
    apply (inv_replace lvl s i _ _ I Hi); cbn [holds todo]; [exact Hc| |].
    + cbn [map] in Hn. now inversion Hn.
    + intros l' m' A. left. now right.
  - destruct Hc as (_ & Hc). apply (inv_replace lvl s i _ _ I Hi); cbn [holds todo]; [exact Hc|exact Hn|]. now left.
  - destruct Hc as (_ & Hc). apply (inv_replace lvl s i _ _ I Hi); cbn [holds todo]; [exact Hc|exact Hn|]. now left.
Qed.

Lemma reach_inv lvl (s s' : Pool) : reach s s' -> Inv lvl s -> Inv lvl s'.
Proof. intros R. induction R as [s|s i s1 s2 St R IH]; intros I; [exact I|]. exact (IH (step_inv lvl s s1 i I St)). Qed.

Lemma start_inv lvl (progs : list (list (act mutex var))) :
  (forall tr, In tr progs -> chk lvl [] tr []) -> Inv lvl (start progs).
Proof.
  intros H.
  assert (Hs : forall i t, start progs i = Some t -> holds t = [] /\ In (todo t) progs).
  { intros i t E. unfold start in E. destruct (nth_error progs i) as [tr|] eqn:En; [|discriminate E].
    cbn [option_map] in E. injection E as <-. cbn [holds todo]. split; [reflexivity|exact (nth_error_In _ _ En)]. }
  constructor.
  - intros i t Hi. destruct (Hs i t Hi) as [-> A]. exact (H _ A).
  - intros i t Hi. destruct (Hs i t Hi) as [-> _]. constructor.
  - intros i j t t' l m m' _ Hi _ Hl. destruct (Hs i t Hi) as [E _]. rewrite E in Hl. destruct Hl.
  - intros i t l Hi Hl. destruct (Hs i t Hi) as [E _]. rewrite E in Hl. destruct Hl.
Qed.
Lemma start_finite (progs : list (list (act mutex var))) : finite (length progs) (start progs).
Proof. intros i Hi. unfold start. apply nth_error_None in Hi. now rewrite Hi. Qed.
Lemma step_finite N (s s' : Pool) i : finite N s -> step s i s' -> finite N s'.
Proof.
  intros F St.
  assert (H : exists t t', s i = Some t /\ s' = set s i t') by (destruct St; eauto).
  destruct H as (t & t' & Hi & ->). intros j Hj. rewrite set_other; [exact (F j Hj)|].
  intros ->. rewrite (F i Hj) in Hi. discriminate Hi.
Qed.
Lemma reach_finite N (s s' : Pool) : reach s s' -> finite N s -> finite N s'.
Proof. intros R. induction R as [s|s i s1 s2 St R IH]; intros F; [exact F|]. exact (IH (step_finite N s s1 i F St)). Qed.

(* ---- Somebody can always go on ---- *)
Lemma exists_max {A} (r : A -> nat * nat) (x0 : A) (l : list A) :
  exists x, In x (x0 :: l) /\ forall y, In y (x0 :: l) -> ~ rlt (r x) (r y).
Proof.
  revert x0. induction l as [|a l IH]; intros x0.
  - exists x0. split; [now left|]. intros y [<-|[]]. apply rlt_irrefl.
  - destruct (IH a) as (x & Hx & Hm). destruct (rlt_dec (r x) (r x0)) as [L|L].
    + exists x0. split; [now left|]. intros y [<-|Hy]; [apply rlt_irrefl|]. specialize (Hm y Hy).
      revert L Hm. unfold rlt; lia.
    + exists x. split; [now right|]. intros y [<-|Hy]; [exact L|exact (Hm y Hy)].
Qed.

Definition threads (N : nat) (s : Pool) : list (nat * thread mutex var) :=
  flat_map (fun i => match s i with Some t => [(i, t)] | None => [] end) (List.seq 0 N).
Lemma threads_in N s i t : finite N s -> (In (i, t) (threads N s) <-> s i = Some t).
Proof.
  intros F. unfold threads. rewrite in_flat_map. split.
  - intros (j & _ & H). destruct (s j) as [u|] eqn:E; [|destruct H]. destruct H as [H|[]].
    injection H as -> ->. exact E.
  - intros H. exists i. split.
    + apply in_seq. split; [lia|]. destruct (le_lt_dec N i) as [L|L]; [|lia]. rewrite (F i L) in H. discriminate H.
    + rewrite H. now left.
Qed.
Definition all_held (N : nat) (s : Pool) : list mutex :=
  flat_map (fun p => map fst (holds (snd p))) (threads N s).
Lemma all_held_in N s l : finite N s ->
  (In l (all_held N s) <-> exists i t m, s i = Some t /\ In (l, m) (holds t)).
Proof.
  intros F. unfold all_held. rewrite in_flat_map. split.
  - intros ([i t] & Hp & Hl). cbn [snd] in Hl. apply in_map_iff in Hl. destruct Hl as ([l' m] & E & Hl).
    cbn [fst] in E. subst l'. exists i, t, m. split; [now apply (threads_in N s)|exact Hl].
  - intros (i & t & m & Hi & Hl). exists (i, t). split; [now apply (threads_in N s)|].
    cbn [snd]. change l with (fst (l, m)). now apply in_map.
Qed.

Definition nonacq (t : thread mutex var) : Prop :=
  match todo t with [] | Acq _ _ :: _ => False | _ => True end.
Lemma nonacq_dec t : {nonacq t} + {~ nonacq t}.
Proof. unfold nonacq. destruct (todo t) as [|[] k]; auto. Qed.
Definition wants_excl (l : mutex) (t : thread mutex var) : Prop :=
  match todo t with Acq l' Exclusive :: _ => l' = l | Promote l' :: _ => l' = l | _ => False end.
Lemma mutex_eq_dec : forall a b : mutex, {a = b} + {a <> b}.
Proof. decide equality; apply Nat.eq_dec. Defined.
Lemma wants_excl_dec l t : {wants_excl l t} + {~ wants_excl l t}.
Proof. unfold wants_excl. destruct (todo t) as [|[l' []|l'|l'|l'|x|x] k]; auto; apply mutex_eq_dec. Qed.

Lemma nonacq_goes lvl (s : Pool) i t : Inv lvl s -> s i = Some t -> nonacq t -> can_go s i.
Proof.
  intros I Hi Hn. split.
  - destruct t as [h td]. pose proof (inv_chk _ _ I i _ Hi) as Hc. unfold nonacq in Hn. cbn [holds todo] in *.
    destruct td as [|[l m|l|l|l|x|x] k]; try contradiction; cbn [chk] in Hc.
    + destruct Hc as (h0 & -> & NS & Hc). eexists. apply (step_promote s i [] h0 l k Hi).
      intros j u m' Hj Hl. destruct (Nat.eq_dec j i) as [E|N]; [exact E|exfalso].
      pose proof (inv_compat _ _ I i j _ u l Upgrade m' (not_eq_sym N) Hi Hj (or_introl eq_refl) Hl) as Fm.
      destruct m'; cbn in Fm; try contradiction. exact (NS (inv_shared _ _ I j u l Hj Hl)).
    + destruct Hc as (h0 & -> & Hc). eexists. exact (step_demote s i [] h0 l k Hi).
    + destruct Hc as (m & h0 & -> & Hc). eexists. exact (step_rel s i [] h0 l m k Hi).
    + eexists. exact (step_rd s i h x k Hi).
    + eexists. exact (step_wr s i h x k Hi).
  - intros u l m k Hu E. rewrite Hi in Hu. injection Hu as <-. unfold nonacq in Hn. rewrite E in Hn. contradiction.
Qed.

Lemma progress lvl N (s : Pool) : Inv lvl s -> finite N s -> ~ finished s -> exists i, can_go s i.
Proof.
  intros I F NF.
  destruct (Exists_dec (fun p => nonacq (snd p)) (threads N s) (fun p => nonacq_dec (snd p))) as [E|E].
  - apply Exists_exists in E. destruct E as ([i t] & Hp & Hn). exists i.
    apply (nonacq_goes lvl s i t I); [now apply (threads_in N s)|exact Hn].
  - assert (NA : forall i t, s i = Some t -> ~ nonacq t).
    { intros i t Hi Hn. apply E, Exists_exists. exists (i, t). split; [now apply (threads_in N s)|exact Hn]. }
    (* a lock that somebody wants and nobody holds *)
    assert (W : exists i t l m k, s i = Some t /\ todo t = Acq l m :: k /\
                forall j u m', s j = Some u -> ~ In (l, m') (holds u)).
    { destruct (all_held N s) as [|l0 ls] eqn:EH.
      - destruct (Exists_dec (fun p : nat * thread mutex var => todo (snd p) <> []) (threads N s)) as [X|X].
        { intros [i t]. cbn [snd]. destruct (todo t); [right; intros H; now apply H|left; discriminate]. }
        + apply Exists_exists in X. destruct X as ([i t] & Hp & Ht). cbn [snd] in Ht.
          apply (threads_in N s i t F) in Hp. specialize (NA i t Hp). unfold nonacq in NA.
          destruct (todo t) as [|[l m|l|l|l|x|x] k] eqn:Et; try (exfalso; apply NA; exact Logic.I).
          { contradiction. }
          exists i, t, l, m, k. split; [exact Hp|]. split; [exact Et|].
          intros j u m' Hj Hl. assert (A : In l (all_held N s)) by (apply (all_held_in N s l F); eauto).
          rewrite EH in A. destruct A.
        + exfalso. apply NF. intros i t Hi. destruct (todo t) as [|a k] eqn:Et; [reflexivity|].
          exfalso. apply X, Exists_exists. exists (i, t). split; [now apply (threads_in N s)|].
          cbn [snd]. rewrite Et. discriminate.
      - destruct (exists_max rank l0 ls) as (lm & Hin & Hmax). rewrite <- EH in Hin.
        apply (all_held_in N s lm F) in Hin. destruct Hin as (i & t & m0 & Hi & Hl).
        specialize (NA i t Hi). pose proof (inv_chk _ _ I i t Hi) as Hc. unfold nonacq in NA.
        destruct (todo t) as [|[l m|l|l|l|x|x] k] eqn:Et; try (exfalso; apply NA; exact Logic.I).
        + cbn [chk] in Hc. rewrite <- Hc in Hl. destruct Hl.
        + cbn [chk] in Hc. destruct Hc as (B & _ & _). specialize (B _ Hl). cbn [fst] in B.
          exists i, t, l, m, k. split; [exact Hi|]. split; [exact Et|].
          intros j u m' Hj Hl'. assert (A : In l (all_held N s)) by (apply (all_held_in N s l F); eauto).
          rewrite EH in A. exact (Hmax l A B). }
    destruct W as (i & t & l & m & k & Hi & Et & Free).
    assert (GoAcq : forall j u m' k', s j = Some u -> todo u = Acq l m' :: k' -> exists s', step s j s').
    { intros j [h td] m' k' Hj Eu. cbn [todo] in Eu. subst td. eexists. apply (step_acq s j h l m' k' Hj).
      intros a v m'' Ha Hv. exfalso. exact (Free a v m'' Ha Hv). }
    destruct (Exists_dec (fun p => wants_excl l (snd p)) (threads N s) (fun p => wants_excl_dec l (snd p))) as [X|X].
    + apply Exists_exists in X. destruct X as ([j u] & Hp & Hw). cbn [snd] in Hw.
      apply (threads_in N s j u F) in Hp. specialize (NA j u Hp). unfold wants_excl in Hw. unfold nonacq in NA.
      destruct (todo u) as [|[l' m'|l'|l'|l'|x|x] k'] eqn:Eu; try contradiction; try (exfalso; apply NA; exact Logic.I).
      destruct m'; try contradiction. subst l'. exists j. split; [exact (GoAcq j u Exclusive k' Hp Eu)|].
      intros v l' m' k'' Hv Ev Hm. rewrite Hp in Hv. injection Hv as <-. rewrite Eu in Ev. injection Ev as <- <- <-.
      contradiction.
    + exists i. split; [exact (GoAcq i t m k Hi Et)|].
      intros v l' m' k'' Hv Ev Hm (j & u & k3 & Hj & Hw). rewrite Hi in Hv. injection Hv as <-.
      rewrite Et in Ev. injection Ev as <- <- <-. apply X, Exists_exists. exists (j, u).
      split; [now apply (threads_in N s)|]. cbn [snd]. unfold wants_excl. destruct Hw as [-> | ->]; reflexivity.
Qed.

(* ---- Every schedule is finite ---- *)
Lemma sum_split {A} (f g : A -> nat) (l : list A) i : NoDup l -> In i l ->
  (forall j, In j l -> j <> i -> f j = g j) -> f i < g i -> list_sum (map f l) < list_sum (map g l).
Proof.
  induction l as [|a l IH]; intros ND Hin He Hlt; [destruct Hin|].
  apply NoDup_cons_iff in ND. destruct ND as [Na ND]. cbn [map].
  change (list_sum (?x :: ?y)) with (x + list_sum y).
  destruct Hin as [->|Hin].
  - assert (E : map f l = map g l).
    { apply map_ext_in. intros j Hj. apply He; [now right|]. intros ->. contradiction. }
    rewrite E. change (f i + list_sum (map g l) < g i + list_sum (map g l)). lia.
  - assert (IH' := IH ND Hin (fun j Hj => He j (or_intror Hj)) Hlt).
    assert (Ea : f a = g a) by (apply He; [now left|]; intros ->; contradiction).
    change (f a + list_sum (map f l) < g a + list_sum (map g l)). lia.
Qed.
Definition wk (s : Pool) (i : nat) : nat := match s i with Some t => length (todo t) | None => 0 end.
Definition total (N : nat) (s : Pool) : nat := list_sum (map (wk s) (List.seq 0 N)).
Lemma step_total N (s s' : Pool) i : finite N s -> step s i s' -> total N s' < total N s.
Proof.
  intros F St.
  assert (H : exists h h' a k, s i = Some (mkThread h (a :: k)) /\ s' = set s i (mkThread h' k))
    by (destruct St; eauto 10).
  destruct H as (h & h' & a & k & Hi & ->). unfold total.
  apply (sum_split _ _ _ i); [apply seq_NoDup| | |].
  - apply in_seq. split; [lia|]. destruct (le_lt_dec N i) as [L|L]; [|lia]. rewrite (F i L) in Hi. discriminate Hi.
  - intros j _ Nj. unfold wk. now rewrite set_other by exact Nj.
  - unfold wk. rewrite set_same, Hi. cbn [todo length]. lia.
Qed.
Lemma runs_to_end lvl N : forall n (s : Pool), total N s <= n -> Inv lvl s -> finite N s ->
  exists s', reach s s' /\ finished s'.
Proof.
  assert (D : forall s : Pool, finite N s -> {finished s} + {~ finished s}).
  { intros s F. destruct (Forall_dec (fun p : nat * thread mutex var => todo (snd p) = [])) with (l := threads N s) as [H|H].
    - intros [i t]. cbn [snd]. destruct (todo t); [now left|right; discriminate].
    - left. intros i t Hi. rewrite Forall_forall in H. apply (H (i, t)). now apply (threads_in N s).
    - right. intros Hf. apply H, Forall_forall. intros [i t] Hp. cbn [snd]. apply (Hf i). now apply (threads_in N s). }
  induction n as [|n IH]; intros s Hn I F; destruct (D s F) as [Hf|Hf];
    try (exists s; split; [constructor|exact Hf]);
    destruct (progress lvl N s I F Hf) as (i & (s1 & St) & _); pose proof (step_total N s s1 i F St) as Ht.
  - lia.
  - destruct (IH s1) as (s' & R & Hd); [lia|exact (step_inv lvl s s1 i I St)|exact (step_finite N s s1 i F St)|].
    exists s'. split; [exact (reach_step s i s1 s' St R)|exact Hd].
Qed.
Lemma finished_holds lvl (s : Pool) : Inv lvl s -> finished s -> forall i t, s i = Some t -> holds t = [].
Proof.
  intros I Hf i t Hi. pose proof (inv_chk _ _ I i t Hi) as Hc. rewrite (Hf i t Hi) in Hc. cbn [chk] in Hc. now symmetry.
Qed.

(* ---- No race on guarded variables ---- *)
Lemma no_race lvl (s : Pool) x l : Inv lvl s -> guard lvl x = Some l -> ~ race s x.
Proof.
  intros I G (i & j & ti & tj & a & b & ki & kj & Nij & Hi & Hj & Ei & Ej & Aa & Ab & _).
  assert (H : forall n t c k, s n = Some t -> todo t = c :: k -> accesses c x -> exists m, In (l, m) (holds t) /\ m <> Shared).
  { intros n t c k Hn E A. pose proof (inv_chk _ _ I n t Hn) as Hc. rewrite E in Hc.
    destruct A as [-> | ->]; cbn [chk] in Hc; destruct Hc as (Hg & _); exact (Hg l G). }
  destruct (H i ti a ki Hi Ei Aa) as (m & Hm & Nm). destruct (H j tj b kj Hj Ej Ab) as (m' & Hm' & Nm').
  pose proof (inv_compat _ _ I i j ti tj l m m' Nij Hi Hj Hm Hm') as Fm.
  destruct m, m'; try contradiction; try (now apply Nm); now apply Nm'.
Qed.

(* ---- Programs made of the calls ---- *)
Lemma remaining_total N (s : Pool) : remaining N s = total N s.
Proof.
  unfold total. induction N as [|N IH]; [reflexivity|]. cbn [remaining].
  rewrite seq_S, map_app, list_sum_app. cbn [map list_sum fold_right Nat.add]. rewrite IH. unfold wk.
  change (list_sum [?x]) with (x + 0). cbn. lia.
Qed.
Lemma client_inv lvl C (P : call -> Prop) progs s :
  (forall c, P c -> Safe lvl (has []) (0, 0) (run C c)) ->
  (forall tr, In tr progs -> exists o, client C P tr o) -> reach (start progs) s ->
  Inv lvl s /\ finite (length progs) s.
Proof.
  intros Hs Hp R. split; [|exact (reach_finite _ _ _ R (start_finite progs))].
  apply (reach_inv lvl _ _ R), start_inv. intros tr Htr. destruct (Hp tr Htr) as [o Ho].
  apply (safe_client lvl C P Hs tr o Ho); [apply has_nil|intros q []].
Qed.
Lemma threads_progress C progs s : well_behaved C ->
  (forall tr, In tr progs -> exists o, client C (fun _ => True) tr o) -> reach (start progs) s ->
  ~ finished s -> exists i, can_go s i.
Proof.
  intros W Hp R NF. destruct (client_inv 0 C _ progs s (fun c _ => safe_run0 C c W) Hp R) as [I F].
  exact (progress 0 _ s I F NF).
Qed.
Lemma threads_finish C progs s : well_behaved C ->
  (forall tr, In tr progs -> exists o, client C (fun _ => True) tr o) -> reach (start progs) s ->
  (exists s', reach s s' /\ finished s') /\
  (forall i s', step s i s' -> remaining (length progs) s' < remaining (length progs) s) /\
  (finished s -> forall i t, s i = Some t -> holds t = []).
Proof.
  intros W Hp R. destruct (client_inv 0 C _ progs s (fun c _ => safe_run0 C c W) Hp R) as [I F]. split; [|split].
  - exact (runs_to_end 0 _ _ s (le_n _) I F).
  - intros i s' St. rewrite !remaining_total. exact (step_total _ s s' i F St).
  - exact (finished_holds 0 s I).
Qed.
Lemma threads_no_race lvl C (P : call -> Prop) progs s x l :
  (forall c, P c -> Safe lvl (has []) (0, 0) (run C c)) ->
  (forall tr, In tr progs -> exists o, client C P tr o) -> reach (start progs) s ->
  guard lvl x = Some l -> ~ race s x.
Proof.
  intros Hs Hp R G. destruct (client_inv lvl C P progs s Hs Hp R) as [I _]. exact (no_race lvl s x l I G).
Qed.
