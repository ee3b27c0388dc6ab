(** * Property theorems: per-frame histories (C01-C07)

    A history is what a sequence of insertData / clearList calls on a fresh TimeCache leaves
    ([run_cache]).  [newest_first], [within_window], [bracketing], [retained], [offer_all]
    are defined in SpecCache.v. *)
From Coq Require Import ZArith Bool List Lia Sorting.Sorted Sorting.Permutation Reals Floats.SpecFloat.
From Verif Require Import RosTime Scalar LinearMath Cache SpecCache CacheProofs CacheQueries
  CacheTheorems CacheReal Instances RealSlerp.
Import ListNotations.
Open Scope Z_scope.

(** Concrete samples used by the examples: frames 1 -> parent 7, times in nanoseconds. *)
Definition ex (t : time) (x : Z) : storage (F64 libm0) nat :=
  {| st_rot := @qidentity (F64 libm0); st_trans := @V3 (F64 libm0) (f64_of_Z x) (f64_of_Z 0) (f64_of_Z 0);
     st_stamp := t; st_frame := 7%nat; st_child := 1%nat |}.
Definition ex_ops : list (cache_op (F64 libm0) nat) :=
  [Offer (ex 5 10); Clear; Offer (ex 30 1); Offer (ex 10 2); Offer (ex 20 3); Offer (ex 20 4);
   Offer (ex 9 5); Offer (ex 40 6); Offer (ex 15 7)].
Definition ex_cache : cache (F64 libm0) nat := run_cache (Dynamic 20 []) ex_ops.

(** ** C01 *)
Theorem C01_history_sorted_and_windowed :
  forall (S : Scalar) (F : Type) (max : duration) (ops : list (cache_op S F)),
  0 <= max -> (forall x, In (Offer x) ops -> 0 <= st_stamp x) ->
  exists l, run_cache (Dynamic max []) ops = Dynamic max l /\
    newest_first l /\ within_window max l.
Proof.
  intros S F max ops Hm Hops. destruct (run_cache_inv max ops Hm Hops) as (l & E & N & W & _). eauto.
Qed.
Print Assumptions C01_history_sorted_and_windowed.

Example C01_example : ex_cache = Dynamic 20 [ex 40 6; ex 30 1; ex 20 3].
Proof. reflexivity. Qed.

Lemma last_next : forall {A} (l : list A) z x, last (z :: l) x = last l z.
Proof. induction l as [|w l IH]; intros z x; [reflexivity|]. change (last (w :: l) x = last (w :: l) z). rewrite !IH. reflexivity. Qed.
(** The cache reports these samples' number and their newest and oldest stamp; zero for no sample and for a static frame. *)
Theorem C01_reported_bounds :
  forall (S : Scalar) (F : Type) (max : duration) (ops : list (cache_op S F)) l,
  0 <= max -> (forall x, In (Offer x) ops -> 0 <= st_stamp x) ->
  run_cache (Dynamic max []) ops = Dynamic max l ->
  let c := Dynamic max l in
  getListLength c = length l /\
  (l = [] -> getLatestTimestamp c = 0 /\ getOldestTimestamp c = 0 /\ getLatestTimeAndParent c = Ok (0, None)) /\
  (l <> [] ->
     (exists x, In x l /\ getLatestTimeAndParent c = Ok (st_stamp x, Some (st_frame x)) /\ getLatestTimestamp c = st_stamp x /\ forall y, In y l -> st_stamp y <= st_stamp x) /\
     (exists x, In x l /\ getOldestTimestamp c = st_stamp x /\ forall y, In y l -> st_stamp x <= st_stamp y)).
Proof.
  intros S F max ops l Hm Hops E c. destruct (run_cache_inv max ops Hm Hops) as (l0 & E0 & N & _). rewrite E in E0. injection E0 as <-. split; [reflexivity|]. split; [intros ->; repeat split|].
  intros Ne. destruct l as [|x l]; [destruct (Ne eq_refl)|]. unfold newest_first in N. split.
  - exists x. split; [left; reflexivity|]. split; [reflexivity|]. split; [reflexivity|]. intros y [<-|Hy]; [apply Z.le_refl|].
    apply StronglySorted_inv in N as (_ & Fa). rewrite Forall_forall in Fa. pose proof (Fa y Hy). lia.
  - exists (last l x). split; [|split; [reflexivity|]]; clear c E Ne; revert x N.
    + clear. induction l as [|z l IH]; intros x N; [left; reflexivity|]. right.  apply StronglySorted_inv in N as (N & _). rewrite last_next. exact (IH z N).
    + clear. induction l as [|z l IH]; intros x N y Hy; [destruct Hy as [<-|[]]; apply Z.le_refl|]. rewrite last_next.
       apply StronglySorted_inv in N as (N & Fa). destruct Hy as [<-|Hy]; [|exact (IH z N y Hy)]. pose proof (IH z N z (or_introl eq_refl)). rewrite Forall_forall in Fa. pose proof (Fa z (or_introl eq_refl)). lia.
Qed.
Print Assumptions C01_reported_bounds.
Theorem C01_reported_bounds_static :
  forall (S : Scalar) (F : Type) (x : storage S F), let c := Static (Some x) in
  getListLength c = 1%nat /\ getLatestTimestamp c = 0 /\ getOldestTimestamp c = 0 /\ getLatestTimeAndParent c = Ok (0, Some (st_frame x)).
Proof. repeat split. Qed.
Print Assumptions C01_reported_bounds_static.

(** ** C02 *)
Theorem C02_accept_rule_one_offer :
  forall (S : Scalar) (F : Type) (max : duration) (ops : list (cache_op S F)) l x,
  0 <= max -> (forall x, In (Offer x) ops -> 0 <= st_stamp x) ->
  run_cache (Dynamic max []) ops = Dynamic max l ->
  0 <= st_stamp x -> valid_time (st_stamp x + max) ->
  exists l' r, insertData (Dynamic max l) x = (Dynamic max l', Ok r) /\
    (r = Inserted <->
       (forall y, In y l -> st_stamp y <= st_stamp x + max /\ st_stamp y <> st_stamp x)) /\
    (r <> Inserted -> l' = l) /\
    (r = Inserted -> forall y, In y l' <->
       (y = x \/ In y l) /\ (forall z, In z (x :: l) -> st_stamp z <= st_stamp y + max)).
Proof. exact (fun S F => @one_offer S F). Qed.
Print Assumptions C02_accept_rule_one_offer.

Theorem C02_retained_set_of_history :
  forall (S : Scalar) (F : Type) (max : duration) (offered : list (storage S F)),
  0 <= max -> stamps_ok max offered ->
  exists l, offer_all (Dynamic max []) offered = Dynamic max l /\ newest_first l /\
            forall x, In x l <-> retained max offered x.
Proof. exact (fun S F => @offer_all_retained S F). Qed.
Print Assumptions C02_retained_set_of_history.

Example C02_example_accepts :
  insertData ex_cache (ex 25 1) = (Dynamic 20 [ex 40 6; ex 30 1; ex 25 1; ex 20 3], Ok Inserted) /\
  insertData ex_cache (ex 30 9) = (ex_cache, Ok (Rejected ERepeatedData)) /\
  insertData ex_cache (ex 19 9) = (ex_cache, Ok (Rejected EOldData)) /\
  insertData ex_cache (ex 45 9) = (Dynamic 20 [ex 45 9; ex 40 6; ex 30 1], Ok Inserted) /\
  valid_time (45 + 20) /\ stamps_ok 20 [ex 30 1; ex 10 2; ex 20 3; ex 20 4].
Proof.
  split; [reflexivity|]. split; [reflexivity|].
  split; [reflexivity|]. split; [reflexivity|].
  split; [split; vm_compute; congruence|].
  repeat constructor; vm_compute; congruence.
Qed.

(** Where stamp + storage time is not representable, the call throws (see C29) and keeps the
    history, except that an empty history keeps the new sample. *)
Theorem C02_overflowing_offer :
  forall (S : Scalar) (F : Type) (max : duration) l (x : storage S F),
  0 <= max -> ~ valid_time (st_stamp x + max) ->
  insertData (Dynamic max l) x =
    (Dynamic max (match l with [] => [x] | _ => l end), Throw RuntimeError ETimeRange).
Proof. exact (fun S F => @insert_overflow S F). Qed.
Print Assumptions C02_overflowing_offer.
Example C02_overflow_example : ~ valid_time (st_stamp (ex (2 ^ 32 * 10 ^ 9 - 5) 1) + 20).
Proof. vm_compute. intros [_ H]. discriminate. Qed.

(** ** C03 *)
Theorem C03_delivery_order_irrelevant :
  forall (S : Scalar) (F : Type) (max : duration) (xs ys : list (storage S F)),
  0 <= max -> stamps_ok max xs -> NoDup (map (fun x => st_stamp x) xs) -> Permutation xs ys ->
  offer_all (Dynamic max []) xs = offer_all (Dynamic max []) ys.
Proof. exact (fun S F => @permuted_delivery S F). Qed.
Print Assumptions C03_delivery_order_irrelevant.
Example C03_example :
  offer_all (Dynamic 20 []) [ex 30 1; ex 10 2; ex 40 3; ex 21 4] =
  offer_all (Dynamic 20 []) [ex 40 3; ex 10 2; ex 21 4; ex 30 1] /\
  offer_all (Dynamic 20 []) [ex 30 1; ex 10 2; ex 40 3; ex 21 4] =
  Dynamic 20 [ex 40 3; ex 30 1; ex 21 4].
Proof. split; reflexivity. Qed.

(** ** C04: exact over the reals, exact at both ends of the history in any arithmetic ... *)
Theorem C04_stored_stamp_real :
  forall (F : Type) (feqb : F -> F -> bool) max (ops : list (cache_op RS F)) l x err,
  0 <= max < dur_bound -> (forall x, In (Offer x) ops -> 0 <= st_stamp x) ->
  run_cache (Dynamic max []) ops = Dynamic max l -> In x l -> st_stamp x <> 0 ->
  getData feqb (Dynamic max l) (st_stamp x) err = Ok (Some x, err).
Proof. exact (fun F => @stored_stamp_real F). Qed.
Print Assumptions C04_stored_stamp_real.

Theorem C04_newest_and_oldest_exact :
  forall (S : Scalar) (F : Type) (feqb : F -> F -> bool) max (ops : list (cache_op S F)) l x err,
  0 <= max < dur_bound -> (forall x, In (Offer x) ops -> 0 <= st_stamp x) ->
  run_cache (Dynamic max []) ops = Dynamic max l -> In x l ->
  (forall y, In y l -> st_stamp y <= st_stamp x) \/ (forall y, In y l -> st_stamp x <= st_stamp y) ->
  st_stamp x <> 0 ->
  getData feqb (Dynamic max l) (st_stamp x) err = Ok (Some x, err).
Proof. exact (fun S F => @stored_stamp_ends S F). Qed.
Print Assumptions C04_newest_and_oldest_exact.

Theorem C04_time_zero_is_newest :
  forall (S : Scalar) (F : Type) (feqb : F -> F -> bool) max (ops : list (cache_op S F)) l x err,
  0 <= max -> (forall x, In (Offer x) ops -> 0 <= st_stamp x) ->
  run_cache (Dynamic max []) ops = Dynamic max l -> In x l ->
  (forall y, In y l -> st_stamp y <= st_stamp x) ->
  getData feqb (Dynamic max l) 0 err = Ok (Some x, err).
Proof. exact (fun S F => @time_zero_newest S F). Qed.
Print Assumptions C04_time_zero_is_newest.

Example C04_example :
  getData Nat.eqb ex_cache 40 None = Ok (Some (ex 40 6), None) /\
  getData Nat.eqb ex_cache 20 None = Ok (Some (ex 20 3), None) /\
  getData Nat.eqb ex_cache 0 None = Ok (Some (ex 40 6), None).
Proof. split; [|split]; reflexivity. Qed.

(** ... but not bit-exact for an interior sample in binary64: the code interpolates at ratio
    0 with the newer neighbour, and 0 * inf is NaN.  (BufferCore accepts infinite
    translations, see C10.) *)
Definition ex_inf (t : time) : storage (F64 libm0) nat :=
  {| st_rot := @qidentity (F64 libm0);
     st_trans := @V3 (F64 libm0) (S754_infinity false) (f64_of_Z 0) (f64_of_Z 0);
     st_stamp := t; st_frame := 7%nat; st_child := 1%nat |}.
Theorem C04_interior_stamp_exact_refuted :
  exists (lm : libm) max (ops : list (cache_op (F64 lm) nat)) l x d,
    0 <= max < dur_bound /\ (forall y, In (Offer y) ops -> 0 < st_stamp y) /\
    run_cache (Dynamic max []) ops = Dynamic max l /\ In x l /\
    vx (st_trans x) = f64_of_Z 3 /\
    getData Nat.eqb (Dynamic max l) (st_stamp x) None = Ok (Some d, None) /\
    vx (st_trans d) = S754_nan.
Proof.
  exists libm0, 100, [Offer (ex 10 1); Offer (ex 20 3); Offer (ex_inf 30)],
    [ex_inf 30; ex 20 3; ex 10 1], (ex 20 3),
    match getData Nat.eqb (Dynamic 100 [ex_inf 30; ex 20 3; ex 10 1]) 20 None with
    | Ok (Some d, _) => d | _ => ex 20 3 end.
  split; [split; vm_compute; congruence|]. split.
  { intros y [E|[E|[E|[]]]]; inversion E; subst; cbn; lia. }
  split; [reflexivity|]. split; [cbn; auto|]. split; [reflexivity|].
  split; [reflexivity|]. reflexivity.
Qed.
Print Assumptions C04_interior_stamp_exact_refuted.

(** ** C05 *)
Theorem C05_no_extrapolation :
  forall (S : Scalar) (F : Type) (feqb : F -> F -> bool) max (ops : list (cache_op S F)) l t err,
  0 <= max < dur_bound -> (forall x, In (Offer x) ops -> 0 <= st_stamp x) ->
  run_cache (Dynamic max []) ops = Dynamic max l -> t <> 0 ->
  (forall d e, getData feqb (Dynamic max l) t err = Ok (Some d, e) ->
     exists lo hi, In lo l /\ In hi l /\ st_stamp lo <= t <= st_stamp hi) /\
  (forall lo hi, In lo l -> In hi l -> st_stamp lo <= t <= st_stamp hi ->
     exists d, getData feqb (Dynamic max l) t err = Ok (Some d, err)) /\
  (getData feqb (Dynamic max l) t err <> UB).
Proof. exact (fun S F => @no_extrapolation S F). Qed.
Print Assumptions C05_no_extrapolation.
Example C05_example :
  getData Nat.eqb ex_cache 41 (Some EEmpty) = Ok (None, Some (EExtrapFuture 41 40)) /\
  getData Nat.eqb ex_cache 19 (Some EEmpty) = Ok (None, Some (EExtrapPast 19 20)) /\
  (exists d, getData Nat.eqb ex_cache 25 (Some EEmpty) = Ok (Some d, Some EEmpty)).
Proof. split; [reflexivity|]. split; [reflexivity|]. exists (ex 25 2). reflexivity. Qed.

(** ** C06 *)
Theorem C06_interpolates_the_two_neighbours :
  forall (S : Scalar) (F : Type) (feqb : F -> F -> bool) max (ops : list (cache_op S F)) l older newer t err,
  0 <= max < dur_bound -> (forall x, In (Offer x) ops -> 0 <= st_stamp x) ->
  run_cache (Dynamic max []) ops = Dynamic max l ->
  bracketing l older newer t ->
  getData feqb (Dynamic max l) t err =
    Ok (Some (if feqb (st_frame older) (st_frame newer) then
                let ratio := sdiv (sofns (t - st_stamp older))
                                  (sofns (st_stamp newer - st_stamp older)) in
                {| st_trans := vinterp (st_trans older) (st_trans newer) ratio;
                   st_rot := qslerp (st_rot older) (st_rot newer) ratio;
                   st_stamp := t; st_frame := st_frame older; st_child := st_child older |}
              else older), err).
Proof. exact (fun S F => @interpolation_neighbours S F). Qed.
Print Assumptions C06_interpolates_the_two_neighbours.
Example C06_example : bracketing [ex 40 6; ex 30 1; ex 20 3] (ex 20 3) (ex 30 1) 25 /\
  getData Nat.eqb ex_cache 25 None = Ok (Some (ex 25 2), None).
Proof.
  split; [|reflexivity]. split; [cbn; auto|]. split; [cbn; auto|].
  split; [cbn; lia|]. intros x [<-|[<-|[<-|[]]]]; cbn; lia.
Qed.

(** ** C07 (real numbers) *)
Theorem C07_slerp_unit : forall (p q : quat RS) (t : R),
  qunit p -> qunit q -> qunit (@qslerp RS p q t).
Proof. exact slerp_unit. Qed.
Print Assumptions C07_slerp_unit.

Theorem C07_slerp_ends : forall (p q : quat RS), qunit p -> qunit q ->
  @qslerp RS p q 0%R = p /\
  @qslerp RS p q 1%R = (if Rlt_dec (qinner p q) 0 then qneg q else q).
Proof. exact (fun p q Hp Hq => conj (slerp_0 p q) (slerp_1 p q Hp Hq)). Qed.
Print Assumptions C07_slerp_ends.

(** The inner product of two interpolants is the cosine of the ratio difference times a fixed
    angle between 0 and 90 degrees on the 3-sphere (the shorter arc), whose cosine is the
    absolute inner product of the neighbours: constant rate along the shorter arc. *)
Theorem C07_slerp_constant_rate : forall (p q : quat RS), qunit p -> qunit q ->
  exists theta : R, (0 <= theta <= PI / 2)%R /\ cos theta = Rabs (qinner p q) /\
    forall s t : R, qinner (@qslerp RS p q s) (@qslerp RS p q t) = cos ((s - t) * theta).
Proof.
  exact (fun p q Hp Hq => ex_intro _ (slerp_theta p q)
    (conj (slerp_theta_range p q) (conj (slerp_theta_cos p q Hp Hq)
      (fun s t => slerp_rate p q s t Hp Hq)))).
Qed.
Print Assumptions C07_slerp_constant_rate.

Theorem C07_translation_convex : forall (v w : vec3 RS) (r : R),
  vx (@vinterp RS v w r) = ((1 - r) * vx v + r * vx w)%R /\
  vy (@vinterp RS v w r) = ((1 - r) * vy v + r * vy w)%R /\
  vz (@vinterp RS v w r) = ((1 - r) * vz v + r * vz w)%R.
Proof. exact vinterp_convex. Qed.
Print Assumptions C07_translation_convex.

Example C07_example : qunit (@qidentity RS) /\ qunit (@Q4 RS (3/5)%R 0%R 0%R (4/5)%R).
Proof. unfold qunit, qidentity. runf. cbn. split; field. Qed.
