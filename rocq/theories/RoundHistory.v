(** * From accepted messages to interpolated links, in binary64 *)
From Coq Require Import ZArith Bool Reals Floats.SpecFloat List String Lia Lra Psatz.
From Verif Require Import RosTime Scalar LinearMath Cache SpecCache CacheProofs CacheQueries CacheTheorems BufferCore SpecCore CoreInv Naturality CoreSet
  CoreTheorems History Instances SpecReal SpecRound SpecInterp FloatErr RoundNorm RoundOps FloatMore RoundSlerp RoundInterp RoundAccept LookupTree RoundLookup.
Import ListNotations.
Open Scope R_scope.
Local Notation u := uro.
Local Opaque MAX_GRAPH_DEPTH.

(** ** what holds of every accepted message holds of every stored sample *)
Section G.
Context {S : Scalar}.
Lemma insert_sorted_from : forall {F} (l : list (storage S F)) x l' y, insert_sorted l x = Some l' -> In y l' -> y = x \/ In y l.
Proof.
  intros F. induction l as [|a l IH]; intros x l' y H Hy; cbn in H.
  - inversion H; subst. destruct Hy as [<-|[]]. auto.
  - destruct (st_stamp a <=? st_stamp x)%Z.
    + destruct (st_stamp a =? st_stamp x)%Z; [discriminate|]. inversion H; subst. destruct Hy as [<-|Hy]; auto.
    + destruct (insert_sorted l x) as [l1|] eqn:E; [|discriminate]. inversion H; subst.
      destruct Hy as [<-|Hy]; [cbn; auto|]. destruct (IH x l1 y E Hy); cbn; auto.
Qed.
Lemma insertData_from : forall {F} (c : cache S F) x y, In y (samples (fst (insertData c x))) -> y = x \/ In y (samples c).
Proof.
  intros F [max l|o] x y H; [|cbn in H; destruct H as [<-|[]]; auto].
  assert (G : In y (samples (fst (match insert_sorted l x with
      | None => (Dynamic max l, Ok (Rejected ERepeatedData))
      | Some l' => let '(l'', thrown) := pruneList l' max in
          (Dynamic max l'', if thrown then Throw RuntimeError ETimeRange else Ok Inserted)
      end))) -> y = x \/ In y l).
  { destruct (insert_sorted l x) as [l'|] eqn:E; [|cbn; auto].
    destruct (pruneList_prefix l' max) as [l2 P]. destruct (pruneList l' max) as [l'' th]. cbn [fst samples] in *.
    intros Hy. apply (insert_sorted_from l x l' y E). rewrite P. apply in_or_app. auto. }
  unfold insertData in H. destruct l as [|f l]; [exact (G H)|].
  destruct (time_add (st_stamp x) max); [|cbn in H; auto].
  destruct (t <? st_stamp f)%Z; [cbn in H; auto|exact (G H)].
Qed.
Context (P : storage S string -> Prop).
Definition all_stored (s : core S) : Prop := forall n c x, hist s n = Some c -> In x (samples c) -> P x.
Definition all_accepted (ops : list (@core_op S)) : Prop :=
  forall m a st, In (OSet m a st) ops -> bad_message (strip_msg m) = false -> P (sample_of (strip_msg m)).
Lemma stored_step : forall (s : core S) o, wf s -> op_ok o -> all_accepted [o] -> all_stored s -> all_stored (step s o).
Proof.
  intros s o W Ho Uo U n c x H Hx. destruct (string_dec n NO_PARENT) as [->|Hn].
  { rewrite hist_NO_PARENT in H by (apply wf_step; assumption). discriminate. }
  rewrite hist_step in H by assumption. destruct o as [m a st|]; cbn [frame_step] in H.
  - destruct (bad_message (strip_msg m)) eqn:B; [exact (U n c x H Hx)|].
    destruct (String.eqb (tm_child (strip_msg m)) n); [|exact (U n c x H Hx)].
    inversion H; subst c. apply insertData_from in Hx as [->|Hx].
    + apply (Uo m a st); [cbn; auto|exact B].
    + destruct (hist s n) as [c0|] eqn:E; [exact (U n c0 x E Hx)|]. destruct st; destruct Hx.
  - destruct (hist s n) as [c0|] eqn:E; [|discriminate]. inversion H; subst c. apply (U n c0 x E).
    destruct c0 as [max l|o]; [destruct Hx|exact Hx].
Qed.
Lemma stored_run : forall ct ops, (0 <= ct < dur_bound)%Z -> Forall op_ok ops -> all_accepted ops -> all_stored (run (init_core ct) ops).
Proof.
  intros ct ops Hct. assert (G : forall ops s, wf s -> Forall op_ok ops -> all_accepted ops -> all_stored s -> all_stored (run s ops)).
  { clear. induction ops as [|o ops IH]; intros s W Hf Uo U; [exact U|]. inversion Hf; subst.
    change (run s (o :: ops)) with (run (step s o) ops). apply IH; [apply wf_step; assumption|assumption| |].
    - intros m a st Hm. apply (Uo m a st). cbn. auto.
    - apply stored_step; try assumption. intros m a st [->|[]]. apply (Uo m a st). cbn. auto. }
  intros Hf Uo. apply G; try assumption; [apply wf_init; assumption|].
  intros n c x H. unfold hist, init_core in H. cbn in H. destruct (String.eqb n NO_PARENT); discriminate.
Qed.
End G.

Section H.
Context {lm : libm}.
(** an accepted message of doubles is a usable sample *)
Lemma accepted_ok : forall (m : tmsg (F64 lm)) L,
  double (qx (tm_rot m)) -> double (qy (tm_rot m)) -> double (qz (tm_rot m)) -> double (qw (tm_rot m)) ->
  vfinite (tm_trans m) -> vnorm (vval (tm_trans m)) <= L -> bad_message (strip_msg m) = false -> sample_ok L (sample_of (strip_msg m)).
Proof.
  intros m L D1 D2 D3 D4 FT NT B. unfold bad_message, setTransform_error in B.
  repeat (apply orb_false_iff in B as (B & ?)). 
  assert (Q : quat_valid (tm_rot m) = true).
  { match goal with H : negb (quat_valid _) = false |- _ => apply negb_false_iff in H; exact H end. }
  destruct (quat_valid_norm (tm_rot m) D1 D2 D3 D4 Q) as (F & N). split; [exact F|]. split; [exact N|]. split; [exact FT|exact NT].
Qed.
End H.

Section I.
Context {lm : libm} (LM : accurate_libm lm).
Lemma qnorm_neg : forall q : quat RS, qnorm (qneg q) = qnorm q.
Proof. intros [x y z w]. unfold qnorm. cbn. f_equal. ring. Qed.
Lemma on_line_norm : forall (v w : vec3 RS) t L, 0 <= t <= 1 -> vnorm v <= L -> vnorm w <= L -> vnorm (on_line v w t) <= L.
Proof.
  intros [a b c] [d e f] t L T V W. rewrite !vnorm_N4 in *. unfold on_line. cbn [vx vy vz] in *.
  replace 0 with ((1 - t) * 0 + t * 0) at 1 by ring. eapply Rle_trans; [apply N4_triangle|]. rewrite !N4_scale, (Rabs_pos_eq t), (Rabs_pos_eq (1 - t)) by lra. nra.
Qed.

(** the interpolation step of getData *)
Theorem interp_samples : forall {F} (one two : storage (F64 lm) F) a b L, sample_ok L one -> sample_ok L two -> L <= IZR (2 ^ 1000) ->
  (0 <= a <= b)%Z -> (0 < b < 2 ^ 62)%Z ->
  let r := SFdiv prec64 emax64 (f64_ofns a) (f64_ofns b) in
  interpolates one two (IZR a / IZR b) (qslerp (st_rot one) (st_rot two) r) (vinterp (st_trans one) (st_trans two) r).
Proof using LM.
  intros F one two a b L (Q1 & N1 & V1 & T1) (Q2 & N2 & V2 & T2) HL Ha Hb. cbv zeta.
  destruct (ratio_err a b Ha Hb) as (Fr & R01 & Er & _). set (r := SFdiv _ _ _ _) in *. clearbody r.
  destruct (slerp_err LM (st_rot one) (st_rot two) r _ Q1 Q2 ltac:(lra) ltac:(lra) Fr R01 Er) as (FQ & q & Hq & Sd & Alt).
  assert (B : vnorm (vval (st_trans one)) + vnorm (vval (st_trans two)) <= big / 2).
  { assert (2 * IZR (2 ^ 1000) <= big / 2); [|lra]. unfold big. apply (Rmult_le_reg_r 2); [lra|]. unfold Rdiv. rewrite (Rmult_assoc (IZR (2 ^ 1023))), Rinv_l, Rmult_1_r by lra.
    rewrite <- !mult_IZR. apply IZR_le. intros C; discriminate C. }
  destruct (vinterp_err (st_trans one) (st_trans two) r _ V1 V2 Fr R01 Er B) as (FV & EV).
  split; [exact FV|]. split; [exact FQ|]. split; [exact EV|]. exists q. split; [exact Hq|]. split; [exact Sd|exact Alt].
Qed.
(** an interpolated link is as good as the samples, up to 1 percent and a factor two *)
Lemma interpolates_ok : forall {F} (one two : storage (F64 lm) F) t r v L, sample_ok L one -> sample_ok L two ->
  / IZR (2 ^ 900) <= L -> 0 <= t <= 1 -> interpolates one two t r v ->
  qfinite r /\ vfinite v /\ qnorm (qval r) <= 101 / 100 /\ vnorm (vval v) <= 2 * L.
Proof.
  intros F one two t r v L (Q1 & N1 & V1 & T1) (Q2 & N2 & V2 & T2) HL Ht (FV & FQ & EV & q & Hq & Sd & Alt).
  split; [exact FQ|]. split; [exact FV|]. pose proof uro_pos as U. assert (L0 : 0 < / IZR (2 ^ 900)) by (apply Rinv_0_lt_compat, IZR_lt; reflexivity). split.
  - assert (Nq : qnorm q = qnorm (qval (st_rot two))) by (destruct Hq as [->| ->]; [reflexivity|apply qnorm_neg]).
    destruct Alt as [(-> & _)|D]; [lra|]. pose proof (qnorm_dist (qval r) (on_arc (qval (st_rot one)) q t)) as T.
    assert (A : qnorm (on_arc (qval (st_rot one)) q t) <= 1006 / 1000 * (1 + 20 * u)) by (apply arc_norm; try exact Ht; try exact Sd; lra).
    rewrite Nq in D. rewrite uro_val in *. lra.
  - pose proof (vnorm_dist (vval v) (on_line (vval (st_trans one)) (vval (st_trans two)) t)) as T.
    pose proof (on_line_norm _ _ t L Ht T1 T2) as A. pose proof eta_small as ES.
    assert (u / IZR (2 ^ 900) <= u * L) by (apply Rmult_le_compat_l; lra). pose proof (vnorm_pos (vval (st_trans one))). pose proof (vnorm_pos (vval (st_trans two))).
    assert (u * (vnorm (vval (st_trans one)) + vnorm (vval (st_trans two))) <= u * (2 * L)) by (apply Rmult_le_compat_l; lra).
    set (E := eta) in *. clearbody E. set (I := IZR (2 ^ 900)) in *. clearbody I. rewrite uro_val in *. lra.
Qed.

Lemma dur_62 : forall max, (max < dur_bound)%Z -> (max < 2 ^ 62)%Z.
Proof. intros max H. unfold dur_bound in H. lia. Qed.

(** what getData hands out *)
Theorem getData_good : forall {F} (feqb : F -> F -> bool) (c : cache (F64 lm) F) t err d e L, cache_ok c ->
  (forall x, In x (samples c) -> sample_ok L x) -> / IZR (2 ^ 900) <= L <= IZR (2 ^ 1000) ->
  getData feqb c t err = Ok (Some d, e) -> link_ok (101 / 100) (2 * L) d.
Proof using LM.
  intros F feqb c t err d e L C G (HL1 & HL2) H.
  assert (L0 : 0 < / IZR (2 ^ 900)) by (apply Rinv_0_lt_compat, IZR_lt; reflexivity).
  assert (K : forall x, In x (samples c) -> link_ok (101 / 100) (2 * L) x).
  { intros x Hx. destruct (G x Hx) as (Q & N & V & T). split; [exact Q|]. split; [exact V|]. split; lra. }
  destruct c as [max l|[o|]]; cbn [getData] in H; [| |discriminate].
  2:{ injection H as <- _. pose proof (K o (or_introl eq_refl)) as (Q & N & V & T). split; [exact Q|]. split; [exact N|]. split; [exact V|exact T]. }
  destruct C as (Hm & N & W & P). cbn [samples] in *. destruct l as [|f l]; [discriminate|].
  destruct (position f l t N) as [->|[(Ht & E)|[(Ht & E & _)|[(Ht & B)|[(Ht & B)|(Ht & B)]]]]].
  - rewrite find_zero in H. cbn [bind] in H. injection H as <- _. apply K. cbn; auto.
  - rewrite find_newest in H by assumption. cbn [bind] in H. injection H as <- _. apply K. cbn; auto.
  - rewrite find_oldest in H by assumption. cbn [bind] in H. injection H as <- _. apply K. apply last_in.
  - destruct (find_between f l t err N Ht B) as (o & n & l1 & l2 & El & B' & Ef). rewrite Ef in H. cbn [bind] in H.
    assert (Io : In o (f :: l)) by (rewrite El; apply in_mid). assert (In_ : In n (f :: l)) by (rewrite El; apply in_mid).
    destruct (feqb (st_frame o) (st_frame n)); [|injection H as <- _; apply K, Io].
    rewrite interpolate_lt with (max := max) in H; [|assumption|exact B'|apply W; assumption]. cbn [bind] in H. injection H as <- _.
    pose proof (W _ _ Io In_) as Ww. pose proof (dur_62 max (proj2 Hm)) as M62.
    pose proof (interp_samples o n (t - st_stamp o) (st_stamp n - st_stamp o) L (G _ Io) (G _ In_) HL2 ltac:(lia) ltac:(lia)) as IS. cbv zeta in IS.
    destruct (interpolates_ok o n _ _ _ L (G _ Io) (G _ In_) HL1 (proj1 (proj2 (ratio_err (t - st_stamp o) (st_stamp n - st_stamp o) ltac:(lia) ltac:(lia)))) IS)
      as (Q & V & NQ & NV).
    split; [exact Q|]. split; [exact V|]. split; [exact NQ|exact NV].
  - rewrite find_future in H by assumption. destruct l; [discriminate|]. destruct (extrap2 t (st_stamp f) err); discriminate.
  - rewrite find_past in H by assumption. destruct l as [|g l]; [discriminate|]. destruct (extrap3 t (st_stamp (last (g :: l) f)) err); discriminate.
Qed.

Theorem links_good : forall ct ops L, (0 <= ct < dur_bound)%Z -> Forall op_ok ops -> finite_ops L ops ->
  / IZR (2 ^ 900) <= L <= IZR (2 ^ 1000) -> forall t n (d : storage (F64 lm) string), link (run (init_core ct) ops) t n = Some d -> link_ok (101 / 100) (2 * L) d.
Proof using LM.
  intros ct ops L Hct Hf Ho HL t n d H. set (s := run (init_core ct) ops) in *.
  assert (W : wf s) by (apply reachable_wf; exists ct, ops; auto).
  assert (G : all_stored (sample_ok L) s).
  { apply stored_run; try assumption. intros m a st Hm B. destruct (Ho m a st Hm) as (D1 & D2 & D3 & D4 & V & T). apply accepted_ok; assumption. }
  unfold link, sample_at in H. destruct (hist s n) as [c|] eqn:E; [|discriminate].
  destruct (getData String.eqb c t None) as [[[x|] e]| |] eqn:Gd; try discriminate.
  destruct (String.eqb (st_frame x) NO_PARENT); [discriminate|]. injection H as <-.
  eapply getData_good; [apply (hist_ok s n c W E)|intros y Hy; exact (G n c y E Hy)|exact HL|exact Gd].
Qed.
Lemma climbs_good : forall ct ops L, (0 <= ct < dur_bound)%Z -> Forall op_ok ops -> finite_ops L ops ->
  / IZR (2 ^ 900) <= L <= IZR (2 ^ 1000) -> forall t n (ds : list (storage (F64 lm) string)) c, climbs (run (init_core ct) ops) t n ds c -> Forall (link_ok (101 / 100) (2 * L)) ds.
Proof using LM.
  intros ct ops L Hct Hf Ho HL t n ds c C. induction C as [n|n d ds c Lk C IH]; constructor; [|exact IH].
  eapply links_good; eassumption.
Qed.

Lemma pow_1pct : (101 / 100) ^ (8 * MAX_GRAPH_DEPTH) <= IZR (2 ^ 116).
Proof.
  assert (P : (101 / 100) ^ 69 <= 2) by (cbn [pow]; lra).
  assert (Q : (101 / 100) ^ (69 * 116) <= 2 ^ 116).
  { rewrite pow_mult. apply pow_incr. split; [apply pow_le; lra|exact P]. }
  replace (IZR (2 ^ 116)) with (2 ^ 116) by (cbn [pow]; lra).
  eapply Rle_trans; [|exact Q]. apply Rle_pow; [lra|]. apply INR_le. rewrite mult_INR, max_depth, mult_INR. rewrite !INR_IZR_INZ. cbn. lra.
Qed.

(** the lookup theorem with nothing asked of rotations *)
Theorem lookup_finite : forall ct (ops : list (@core_op (F64 lm))) L tgt src t msg, (0 <= ct < dur_bound)%Z -> Forall op_ok ops -> finite_ops L ops ->
  / IZR (2 ^ 900) <= L <= IZR (2 ^ 800) -> tgt <> src ->
  let s := run (init_core ct) ops in
  lookupTransform s tgt src t = Ok msg ->
  exists ds dt c, climbs s (tm_stamp msg) src ds c /\ climbs s (tm_stamp msg) tgt dt c /\
    (List.length ds <= MAX_GRAPH_DEPTH)%nat /\ (List.length dt <= MAX_GRAPH_DEPTH)%nat /\
    let N := (List.length ds + List.length dt)%nat in
    let e := pose_mul (pose_inv (climb_pose (map exact_link dt))) (climb_pose (map exact_link ds)) in
    qfinite (tm_rot msg) /\ vfinite (tm_trans msg) /\
    qdist (qval (tm_rot msg)) (fst e) <= 21 * INR (S N) * u * (101 / 100) ^ N /\
    vdist (vval (tm_trans msg)) (snd e) <= 256 * (INR (S N) * INR (S N)) * u * ((101 / 100) ^ (4 * N) * L).
Proof using LM.
  intros ct ops L tgt src t msg Hct Hf Ho (HL1 & HL2) Ne s H.
  assert (I1 : IZR (2 ^ 800) <= IZR (2 ^ 1000)) by (apply IZR_le; intros C; discriminate C).
  assert (L0 : 0 < / IZR (2 ^ 900)) by (apply Rinv_0_lt_compat, IZR_lt; reflexivity).
  assert (R : reachable s) by (exists ct, ops; auto).
  destruct (lookup_rounding lm s tgt src t msg (101 / 100) (2 * L) R Ne H) as (ds & dt & c & Cs & Ct & Ls & Lt & F1 & F2 & Dq & Dv).
  - intros ds c [C|C]; eapply climbs_good; try eassumption; lra.
  - lra.
  - lra.
  - pose proof pow_1pct as P. apply Rle_trans with (IZR (2 ^ 116) * (2 * IZR (2 ^ 800))).
    + apply Rmult_le_compat; [apply pow_le; lra|lra|exact P|lra].
    + rewrite <- !mult_IZR. apply IZR_le. intros C; discriminate C.
  - exists ds, dt, c. cbv zeta in *. split; [exact Cs|]. split; [exact Ct|]. split; [exact Ls|]. split; [exact Lt|].
    split; [exact F1|]. split; [exact F2|]. split; [exact Dq|]. eapply Rle_trans; [exact Dv|]. right. ring.
Qed.
End I.

(** ** reading at a stored stamp *)
Section J.
Context {lm : libm} (LM : accurate_libm lm) {F : Type}.
Lemma next_newer : forall (l : list (storage (F64 lm) F)) x, newest_first l -> In x l ->
  (forall y, In y l -> (st_stamp y <= st_stamp x)%Z) \/
  exists n, In n l /\ (st_stamp x < st_stamp n)%Z /\ forall y, In y l -> (st_stamp y <= st_stamp x \/ st_stamp n <= st_stamp y)%Z.
Proof.
  intros l x N Hx. apply in_split in Hx as (l1 & l2 & ->).
  destruct l1 as [|n l1 _] using rev_ind.
  - left. intros y Hy. apply (nf_head_max _ _ _ N Hy).
  - right. rewrite <- app_assoc in *. cbn [app] in *. exists n. split; [apply in_mid|].
    split; [apply nf_app in N as (_ & N & _); apply nf_inv in N as [_ N]; apply N; cbn; auto|].
    intros y Hy. apply (in_two_neighbours l1 l2 n x y N Hy).
Qed.
Theorem stored_stamp_64 : forall (feqb : F -> F -> bool) max ops (l : list (storage (F64 lm) F)) x err,
  (0 <= max < dur_bound)%Z -> (forall x, In (Offer x) ops -> (0 <= st_stamp x)%Z) ->
  run_cache (Dynamic max []) ops = Dynamic max l -> (forall y, In y l -> sample_ok (IZR (2 ^ 1000)) y) -> In x l -> st_stamp x <> 0%Z ->
  exists d, getData feqb (Dynamic max l) (st_stamp x) err = Ok (Some d, err) /\
    st_stamp d = st_stamp x /\ st_frame d = st_frame x /\ st_child d = st_child x /\
    vfinite (st_trans d) /\ qfinite (st_rot d) /\
    vval (st_trans d) = vval (st_trans x) /\ qdist (qval (st_rot d)) (qval (st_rot x)) <= 332 * u.
Proof using LM.
  intros feqb max ops l x err Hm Hops E G Hx H0. pose proof uro_pos as U.
  assert (Same : getData feqb (Dynamic max l) (st_stamp x) err = Ok (Some x, err) ->
    exists d, getData feqb (Dynamic max l) (st_stamp x) err = Ok (Some d, err) /\
    st_stamp d = st_stamp x /\ st_frame d = st_frame x /\ st_child d = st_child x /\
    vfinite (st_trans d) /\ qfinite (st_rot d) /\
    vval (st_trans d) = vval (st_trans x) /\ qdist (qval (st_rot d)) (qval (st_rot x)) <= 332 * u).
  { intros Eq. exists x. destruct (G x Hx) as (Q & _ & V & _). rewrite qdist_self. split; [exact Eq|]. repeat (split; [reflexivity || assumption|]). lra. }
  destruct (run_cache_inv max ops) as (l' & E' & N & W & P); [lia|assumption|].
  rewrite E in E'. injection E' as <-.
  destruct (next_newer l x N Hx) as [D|(n & Hn & L & Nb)].
  { apply Same. apply (stored_stamp_ends feqb max ops); auto. }
  assert (DE : (forall y, In y l -> (st_stamp x <= st_stamp y)%Z) \/ exists y, In y l /\ (st_stamp y < st_stamp x)%Z).
  { destruct l as [|f l]; [destruct Hx|]. destruct (Z_lt_ge_dec (st_stamp (last l f)) (st_stamp x)).
    - right. exists (last l f). split; [apply last_in|assumption].
    - left. intros y Hy. pose proof (nf_last_min _ _ _ N Hy). lia. }
  destruct DE as [D|D]; [apply Same, (stored_stamp_ends feqb max ops); auto|].
  assert (GD : getData feqb (Dynamic max l) (st_stamp x) err =
    if feqb (st_frame x) (st_frame n) then d <- interpolate x n (st_stamp x) ;; Ok (Some d, err) else Ok (Some x, err)).
  { cbn [getData]. rewrite find_neighbours with (older := x) (newer := n); auto; lia. }
  destruct (feqb (st_frame x) (st_frame n)); [|apply Same, GD].
  rewrite interpolate_lt with (max := max) in GD; [|assumption|lia|apply W; assumption]. cbn [bind] in GD. rewrite Z.sub_diag in GD.
  eexists. split; [exact GD|]. cbn [st_stamp st_frame st_child st_trans st_rot]. clear GD.
  pose proof (W _ _ Hx Hn) as Ww. pose proof (dur_62 max (proj2 Hm)) as M62. set (b := (st_stamp n - st_stamp x)%Z) in *.
  pose proof (interp_samples LM x n 0 b _ (G _ Hx) (G _ Hn) (Rle_refl _) ltac:(lia) ltac:(lia)) as IS. cbv zeta in IS.
  destruct (ratio_err 0 b ltac:(lia) ltac:(lia)) as (Fr & _ & _ & R0). specialize (R0 eq_refl). cbv zeta in *.
  change (@sdiv (F64 lm) (@sofns (F64 lm) 0) (@sofns (F64 lm) b)) with (SFdiv prec64 emax64 (f64_ofns 0) (f64_ofns b)).
  set (r := SFdiv prec64 emax64 (f64_ofns 0) (f64_ofns b)) in *. clearbody r.
  destruct (G _ Hx) as (Q1 & N1 & V1 & T1). destruct (G _ Hn) as (Q2 & N2 & V2 & T2).
  destruct IS as (FV & FQ & _ & q & Hq & Sd & Alt).
  split; [reflexivity|]. split; [reflexivity|]. split; [reflexivity|]. split; [exact FV|]. split; [exact FQ|]. split.
  - apply vinterp_zero; try assumption. eapply Rle_trans; [exact T1|]. apply IZR_le. intros C; discriminate C.
  - destruct Alt as [(-> & _)|Ds]; [rewrite qdist_self; lra|].
    assert (Nq : qnorm q = qnorm (qval (st_rot n))) by (destruct Hq as [->| ->]; [reflexivity|apply qnorm_neg]).
    unfold Rdiv in Ds. rewrite Rmult_0_l, on_arc_0 in Ds; [|exact Sd|lra|rewrite Nq; lra]. rewrite Nq in Ds.
    eapply Rle_trans; [exact Ds|]. rewrite uro_val. lra.
Qed.
End J.
