(** * Property C100: minimum, maximum, clamping and greatest axis in binary64 *)
From Coq Require Import ZArith Bool Reals List Floats.SpecFloat Lia Lra.
From Flocq Require Import Raux.
From Verif Require Import Scalar LinearMath LinearExtra LinearMore Instances SpecRound FloatErr FloatMore.
Open Scope R_scope.

(** A binary64 number that is no NaN *)
Definition number (x : f64) : Prop := finite x \/ exists s, x = S754_infinity s.
(** Coordinate [n] of a vector *)
Definition coord (v : vec3 RS) (n : nat) : R := match n with O => vx v | S O => vy v | _ => vz v end.

Section C.
Context (lm : libm).
Notation D := (F64 lm).
Lemma ltb_R (x y : f64) : finite x -> finite y -> @sltb D x y = if Rlt_dec (val x) (val y) then true else false.
Proof.
  intros Fx Fy. cbn [F64 sltb scar]. pose proof (fltb_ok x y Fx Fy) as H. destruct (Rlt_dec (val x) (val y)) as [L|L], (SFltb x y) eqn:E; try reflexivity.
  - apply H in L. congruence.
  - exfalso. apply L, H. reflexivity.
Qed.
Lemma ltb_nan_l y : @sltb D S754_nan y = false.
Proof. reflexivity. Qed.
Lemma ltb_nan_r (x : f64) : @sltb D x S754_nan = false.
Proof. destruct x; reflexivity. Qed.

(** On finite doubles these functions are exact. *)
Theorem C100_exact : forall a b : f64, finite a -> finite b ->
  (val (@tf2Min D a b) = Rmin (val a) (val b) /\ val (@tf2Max D a b) = Rmax (val a) (val b)) /\
  (val (@tf2SetMin D a b) = Rmin (val a) (val b) /\ val (@tf2SetMax D a b) = Rmax (val a) (val b)) /\
  (finite (@tf2Min D a b) /\ finite (@tf2Max D a b) /\ finite (@tf2SetMin D a b) /\ finite (@tf2SetMax D a b)).
Proof.
  intros a b Fa Fb. unfold tf2Min, tf2Max, tf2SetMin, tf2SetMax. rewrite !(ltb_R a b), !(ltb_R b a) by assumption.
  unfold Rmin, Rmax. destruct (Rlt_dec (val a) (val b)), (Rlt_dec (val b) (val a)), (Rle_dec (val a) (val b)); repeat split; try assumption; lra.
Qed.
(** Component by component for vectors. *)
Theorem C100_vectors : forall v w : vec3 D, vfinite v -> vfinite w ->
  vval (vsetMin v w) = @V3 RS (Rmin (val (vx v)) (val (vx w))) (Rmin (val (vy v)) (val (vy w))) (Rmin (val (vz v)) (val (vz w))) /\
  vval (vsetMax v w) = @V3 RS (Rmax (val (vx v)) (val (vx w))) (Rmax (val (vy v)) (val (vy w))) (Rmax (val (vz v)) (val (vz w))).
Proof.
  intros v w (F1 & F2 & F3) (G1 & G2 & G3). unfold vval, vsetMin, vsetMax. cbn [vx vy vz].
  destruct (C100_exact _ _ F1 G1) as (_ & (A1 & B1) & _), (C100_exact _ _ F2 G2) as (_ & (A2 & B2) & _), (C100_exact _ _ F3 G3) as (_ & (A3 & B3) & _).
  rewrite A1, A2, A3, B1, B2, B3. split; reflexivity.
Qed.
(** maxAxis and minAxis name a coordinate that no other one exceeds, or goes below. *)
Theorem C100_axes : forall v : vec3 D, vfinite v ->
  (vmaxAxis v <= 2)%nat /\ (vminAxis v <= 2)%nat /\
  forall n, coord (vval v) n <= coord (vval v) (vmaxAxis v) /\ coord (vval v) (vminAxis v) <= coord (vval v) n.
Proof.
  intros v (F1 & F2 & F3). unfold vmaxAxis, vminAxis. rewrite !ltb_R by assumption.
  destruct (Rlt_dec (val (vx v)) (val (vy v))), (Rlt_dec (val (vy v)) (val (vz v))), (Rlt_dec (val (vx v)) (val (vz v)));
    (split; [lia|]); (split; [lia|]); intros [|[|k]]; cbn [coord vval vx vy vz]; lra.
Qed.
(** Clamping between finite bounds gives a finite number between them for every double that is no
    NaN, infinities included, and leaves what is between them alone. *)
Lemma clamp_ok (a lb ub : f64) : number a -> finite lb -> finite ub -> val lb <= val ub ->
  let r := if @sltb D a lb then lb else if @sltb D ub a then ub else a in
  finite r /\ val lb <= val r <= val ub /\ (r = a \/ r = lb \/ r = ub) /\ (finite a -> val lb <= val a <= val ub -> r = a).
Proof.
  intros N Fl Fu L. cbv zeta. destruct N as [Fa|([|] & ->)].
  - rewrite !ltb_R by assumption. destruct (Rlt_dec (val a) (val lb)); [repeat split; auto; intros; lra|].
    destruct (Rlt_dec (val ub) (val a)); repeat split; auto; intros; lra.
  - assert (X : @sltb D (S754_infinity true) lb = true) by (destruct lb as [| | |]; try contradiction; reflexivity).
    rewrite X. repeat split; auto; try lra; intros K; destruct K.
  - assert (X : @sltb D (S754_infinity false) lb = false) by (destruct lb as [| | |[]]; try contradiction; reflexivity).
    assert (Y : @sltb D ub (S754_infinity false) = true) by (destruct ub as [| | |[]]; try contradiction; reflexivity).
    rewrite X, Y. repeat split; auto; try lra; intros K; destruct K.
Qed.
Theorem C100_clamp : forall a lb ub : f64, number a -> finite lb -> finite ub -> val lb <= val ub ->
  forall r, r = @GEN_clamped D a lb ub \/ r = @GEN_clamp D a lb ub ->
  finite r /\ val lb <= val r <= val ub /\ (r = a \/ r = lb \/ r = ub) /\ (finite a -> val lb <= val a <= val ub -> r = a).
Proof. intros a lb ub N Fl Fu L r [->| ->]; exact (clamp_ok a lb ub N Fl Fu L). Qed.
Lemma one_val : finite (@sone D) /\ val (@sone D) = 1.
Proof.
  assert (E : @sone D = S754_finite false 4503599627370496 (-52)) by (vm_compute; reflexivity). rewrite E. split; [reflexivity|].
  rewrite val_SF2R. unfold BinarySingleNaN.SF2R, Defs.F2R. cbn. lra.
Qed.
Lemma minus_one_val : finite (@slit D (-1) 1) /\ val (@slit D (-1) 1) = -1.
Proof.
  assert (E : @slit D (-1) 1 = S754_finite true 4503599627370496 (-52)) by (vm_compute; reflexivity). rewrite E. split; [reflexivity|].
  rewrite val_SF2R. unfold BinarySingleNaN.SF2R, Defs.F2R. cbn. lra.
Qed.
(** tf2Acos and tf2Asin call acos and asin only with arguments in [-1, 1], the given one if it is
    in there, whatever rounding or an overflow has made of it. *)
Theorem C100_acos_and_asin_in_domain : forall a : f64, number a ->
  exists r, finite r /\ -1 <= val r <= 1 /\ (finite a -> -1 <= val a <= 1 -> r = a) /\
    @tf2Acos D a = lm_acos lm r /\ @tf2Asin D a = lm_asin lm r.
Proof.
  intros a N. destruct one_val as (F1 & V1), minus_one_val as (F2 & V2).
  assert (L : val (@slit D (-1) 1) <= val (@sone D)) by (rewrite V1, V2; lra).
  destruct (clamp_ok a _ _ N F2 F1 L) as (F & B & _ & S).
  eexists. split; [exact F|]. split; [rewrite V1, V2 in B; exact B|]. split; [intros Fa H; apply S; [exact Fa|rewrite V1, V2; exact H]|].
  unfold tf2Acos, tf2Asin, sgtb. cbn [F64 sacos sasin].
  destruct (@sltb D a (slit (-1) 1)) eqn:E; [|split; reflexivity].
  replace (@sltb D (@sone D) (@slit D (-1) 1)) with false; [split; reflexivity|].
  rewrite ltb_R by assumption. rewrite V1, V2. destruct (Rlt_dec 1 (-1)); [lra|reflexivity].
Qed.
(** With a NaN: min and max return the second argument, setMin, setMax and the clamps the first. *)
Theorem C100_nan : forall x y : f64,
  (@tf2Min D S754_nan x = x /\ @tf2Min D x S754_nan = S754_nan /\ @tf2Max D S754_nan x = x /\ @tf2Max D x S754_nan = S754_nan) /\
  (@tf2SetMin D S754_nan x = S754_nan /\ @tf2SetMin D x S754_nan = x /\ @tf2SetMax D S754_nan x = S754_nan /\ @tf2SetMax D x S754_nan = x) /\
  (@GEN_clamped D S754_nan x y = S754_nan /\ @GEN_clamp D S754_nan x y = S754_nan) /\
  (@tf2Acos D S754_nan = lm_acos lm S754_nan /\ @tf2Asin D S754_nan = lm_asin lm S754_nan).
Proof.
  intros x y. unfold tf2Min, tf2Max, tf2SetMin, tf2SetMax, GEN_clamped, GEN_clamp. rewrite !ltb_nan_l, !ltb_nan_r.
  repeat (split; [repeat split; reflexivity|]).
  unfold tf2Acos, tf2Asin, sgtb. rewrite ltb_nan_l, ltb_nan_r. split; reflexivity.
Qed.
(** So "a clamped number lies between the bounds" and "min(a, b) = min(b, a)" fail, *)
Theorem C100_clamped_is_within_bounds_refuted : forall lb ub : f64, ~ number (@GEN_clamped D S754_nan lb ub).
Proof. intros lb ub. destruct (C100_nan lb ub) as (_ & _ & (-> & _) & _). intros [[]|(s & E)]; discriminate. Qed.
Theorem C100_min_is_symmetric_refuted : @tf2Min D S754_nan (f64_of_Z 1) <> @tf2Min D (f64_of_Z 1) S754_nan.
Proof. intros E. destruct (C100_nan (f64_of_Z 1) (f64_of_Z 1)) as ((A & B & _) & _). rewrite A, B in E. vm_compute in E. discriminate. Qed.
End C.
Print Assumptions C100_axes.
Print Assumptions C100_clamp.
Print Assumptions C100_acos_and_asin_in_domain.
Print Assumptions C100_nan.
(** 3 and an infinity clamped to [-1, 1], and the axes of (1, -2, 7): the hypotheses hold. *)
Theorem C100_example :
  @GEN_clamp (F64 libm0) (f64_of_Z 3) (f64_of_Z (-1)) (f64_of_Z 1) = f64_of_Z 1 /\
  @GEN_clamped (F64 libm0) (S754_infinity true) (f64_of_Z (-1)) (f64_of_Z 1) = f64_of_Z (-1) /\
  (finite (f64_of_Z 3) /\ finite (f64_of_Z (-1)) /\ finite (f64_of_Z 1) /\ val (f64_of_Z (-1)) <= val (f64_of_Z 1)) /\
  @vmaxAxis (F64 libm0) (@V3 (F64 libm0) (f64_of_Z 1) (f64_of_Z (-2)) (f64_of_Z 7)) = 2%nat /\
  @vminAxis (F64 libm0) (@V3 (F64 libm0) (f64_of_Z 1) (f64_of_Z (-2)) (f64_of_Z 7)) = 1%nat.
Proof.
  split; [vm_compute; reflexivity|]. split; [vm_compute; reflexivity|]. split; [|split; vm_compute; reflexivity].
  split; [vm_compute; reflexivity|]. split; [vm_compute; reflexivity|]. split; [vm_compute; reflexivity|].
  assert (E1 : f64_of_Z (-1) = S754_finite true 4503599627370496 (-52)) by (vm_compute; reflexivity).
  assert (E2 : f64_of_Z 1 = S754_finite false 4503599627370496 (-52)) by (vm_compute; reflexivity).
  rewrite E1, E2, !val_SF2R. unfold BinarySingleNaN.SF2R, Defs.F2R. cbn. lra.
Qed.
