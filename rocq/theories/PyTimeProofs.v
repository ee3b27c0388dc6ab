(** * What the trip of a time through a Python float does to it *)
From Coq Require Import ZArith Bool Reals Floats.SpecFloat Lia Lra Psatz.
From Flocq Require Import Zaux Raux Defs Generic_fmt Ulp FLT Round_NE BinarySingleNaN.
From Verif Require Import RosTime Scalar Instances SpecRound FloatErr RoundNorm RoundOps FloatMore RoundSlerp RoundInterp RoundAccept PyTime.
Open Scope R_scope.
Local Notation u := uro.
#[local] Existing Instance FloatErr.Hprec.
#[local] Existing Instance FloatErr.Hmax.

(** ** floor and round of a double *)
Lemma powerRZ_Zpow : forall e, (0 <= e)%Z -> powerRZ 2 e = IZR (2 ^ e).
Proof.
  intros e H. destruct e as [|p|p]; [reflexivity| |lia]. cbn [powerRZ].
  rewrite <- (positive_nat_Z p). rewrite <- pow_IZR. reflexivity.
Qed.
Lemma powerRZ_neg2 : forall e, (e < 0)%Z -> powerRZ 2 e = / IZR (2 ^ (- e)).
Proof.
  intros e H. rewrite <- powerRZ_Zpow by lia. replace e with (- (- e))%Z at 1 by lia. apply powerRZ_neg'.
Qed.
Lemma floor_ok : forall x, finite x -> exists n, f64_floor x = Some n /\ IZR n <= val x < IZR n + 1.
Proof.
  intros [s|s| |s m e] F; try contradiction; cbn [f64_floor val].
  - exists 0%Z. split; [reflexivity|]. lra.
  - set (n := (if s then Z.neg m else Z.pos m)).
    assert (V : (if s then -1 else 1) * IZR (Z.pos m) * powerRZ 2 e = IZR n * powerRZ 2 e).
    { unfold n. destruct s; [change (Z.neg m) with (- Z.pos m)%Z; rewrite opp_IZR; ring|ring]. }
    rewrite V. eexists. split; [reflexivity|]. destruct (Z.leb_spec 0 e) as [H|H].
    + rewrite mult_IZR, powerRZ_Zpow by lia. lra.
    + rewrite powerRZ_neg2 by lia. assert (P : (0 < 2 ^ (- e))%Z) by (apply Z.pow_pos_nonneg; lia).
      pose proof (Z.div_mod n (2 ^ (- e)) ltac:(lia)) as D. pose proof (Z.mod_pos_bound n (2 ^ (- e)) P) as M.
      set (q := (n / 2 ^ (- e))%Z) in *. set (r := (n mod 2 ^ (- e))%Z) in *. set (k := (2 ^ (- e))%Z) in *.
      assert (K : 0 < IZR k) by (apply IZR_lt; exact P).
      rewrite D, plus_IZR, mult_IZR. assert (R0 : 0 <= IZR r) by (apply IZR_le; lia). assert (R1 : IZR r < IZR k) by (apply IZR_lt; lia).
      replace ((IZR k * IZR q + IZR r) * / IZR k) with (IZR q + IZR r * / IZR k) by (field; lra).
      assert (I : 0 < / IZR k) by (apply Rinv_0_lt_compat; exact K). assert (0 <= IZR r * / IZR k) by (apply Rmult_le_pos; lra).
      assert (IZR r * / IZR k < IZR k * / IZR k) by (apply Rmult_lt_compat_r; lra). rewrite Rinv_r in H1 by lra. lra.
Qed.
Lemma round_ok : forall x, finite x -> 0 <= val x -> exists n, f64_round x = Some n /\ IZR n - 1 / 2 <= val x < IZR n + 1 / 2.
Proof.
  intros [s|s| |s m e] F H0; try contradiction; cbn [f64_round val] in *.
  - exists 0%Z. split; [reflexivity|]. lra.
  - assert (P2 : 0 < powerRZ 2 e) by (apply powerRZ_lt; lra). assert (PM : 0 < IZR (Z.pos m)) by (apply IZR_lt; lia).
    assert (PP : 0 < IZR (Z.pos m) * powerRZ 2 e) by (apply Rmult_lt_0_compat; lra).
    destruct s; [exfalso; lra|]. rewrite Rmult_1_l in *. eexists. split; [reflexivity|]. destruct (Z.leb_spec 0 e) as [H|H].
    + rewrite mult_IZR, powerRZ_Zpow by lia. lra.
    + rewrite powerRZ_neg2 by lia. assert (P : (0 < 2 ^ (- e))%Z) by (apply Z.pow_pos_nonneg; lia).
      set (k := (2 ^ (- e))%Z) in *. set (n := Z.pos m) in *. pose proof (Z.div_mod (2 * n + k) (2 * k) ltac:(lia)) as D. pose proof (Z.mod_pos_bound (2 * n + k) (2 * k) ltac:(lia)) as M.
      set (q := ((2 * n + k) / (2 * k))%Z) in *. set (r := ((2 * n + k) mod (2 * k))%Z) in *.
      assert (K : 0 < IZR k) by (apply IZR_lt; exact P).
      assert (E : 2 * IZR n + IZR k = 2 * IZR k * IZR q + IZR r) by (apply (f_equal IZR) in D; rewrite !plus_IZR, !mult_IZR in D; lra).
      assert (R0 : 0 <= IZR r) by (apply IZR_le; lia). assert (R1 : IZR r < 2 * IZR k) by (apply (Rlt_le_trans _ (IZR (2 * k))); [apply IZR_lt; lia|rewrite mult_IZR; lra]).
      assert (Q : IZR n * / IZR k = IZR q - 1 / 2 + IZR r * / IZR k / 2) by (apply (Rmult_eq_reg_r (2 * IZR k)); [field_simplify; lra|lra]).
      rewrite Q. assert (I : 0 < / IZR k) by (apply Rinv_0_lt_compat; exact K). assert (0 <= IZR r * / IZR k) by (apply Rmult_le_pos; lra).
      assert (IZR r * / IZR k < 2 * IZR k * / IZR k) by (apply Rmult_lt_compat_r; lra). rewrite Rmult_assoc, Rinv_r in H2 by lra. lra.
Qed.

(** ** rounding below a power of two; the doubles above one form a grid *)
Lemma bpowp : forall k, (0 <= k)%Z -> bpow radix2 k = IZR (2 ^ k).
Proof. intros k H. symmetry. apply (IZR_Zpower radix2 k H). Qed.
Lemma bpown : forall k, (0 <= k)%Z -> bpow radix2 (- k) = / IZR (2 ^ k).
Proof. intros k H. rewrite bpow_opp, bpowp by exact H. reflexivity. Qed.
Lemma rnd_ulp : forall k x, (-1000 <= k)%Z -> Rabs x < bpow radix2 k -> Rabs (rnd x - x) <= bpow radix2 (k - 54).
Proof.
  intros k x K H. pose proof (error_le_half_ulp radix2 (FLT_exp (-1074) 53) (fun z => negb (Z.even z)) x) as E.
  eapply Rle_trans; [exact E|].
  destruct (Req_dec x 0) as [X|X].
  - subst x. rewrite ulp_FLT_0 by (exact FloatErr.Hprec). replace (/ 2) with (bpow radix2 (-1)) by (cbn; lra). rewrite <- bpow_plus. apply bpow_le. lia.
  - rewrite ulp_neq_0 by exact X. replace (/ 2) with (bpow radix2 (-1)) by (cbn; lra). rewrite <- bpow_plus. apply bpow_le.
    unfold cexp, FLT_exp. pose proof (mag_le_bpow radix2 x k X H). lia.
Qed.
Lemma on_grid : forall j y, (-1000 <= j)%Z -> generic_format radix2 (FLT_exp (-1074) 53) y -> bpow radix2 j <= y -> exists m, y = IZR m * bpow radix2 (j - 52).
Proof.
  intros j y K F H. assert (0 < bpow radix2 j) by apply bpow_gt_0.
  assert (M : (j + 1 <= mag radix2 y)%Z). { apply mag_ge_bpow. rewrite Rabs_pos_eq by lra. replace (j + 1 - 1)%Z with j by lia. exact H. }
  unfold generic_format, F2R in F. cbn [Fnum Fexp] in F. set (e := cexp radix2 (FLT_exp (-1074) 53) y) in F.
  assert (E : (j - 52 <= e)%Z) by (unfold e, cexp, FLT_exp; lia).
  exists (Ztrunc (scaled_mantissa radix2 (FLT_exp (-1074) 53) y) * 2 ^ (e - (j - 52)))%Z.
  rewrite mult_IZR, <- bpowp by lia. rewrite Rmult_assoc, <- bpow_plus. replace (e - (j - 52) + (j - 52))%Z with e by lia. exact F.
Qed.
Lemma rnd_pt : forall x, generic_format radix2 (FLT_exp (-1074) 53) (rnd x).
Proof. intros x. apply generic_format_round; [apply FLT_exp_valid; exact FloatErr.Hprec|apply valid_rnd_N]. Qed.
Lemma rnd_id : forall x, generic_format radix2 (FLT_exp (-1074) 53) x -> rnd x = x.
Proof. intros x F. apply round_generic; [apply valid_rnd_N|exact F]. Qed.
Lemma val_format : forall x, finite x -> generic_format radix2 (FLT_exp (-1074) 53) (val x).
Proof. intros x F. rewrite <- (rnd_val x F). apply rnd_pt. Qed.
Lemma pow_format : forall k, (-1000 <= k)%Z -> generic_format radix2 (FLT_exp (-1074) 53) (bpow radix2 k).
Proof. intros k H. apply generic_format_bpow. unfold FLT_exp. lia. Qed.
Lemma near_grid : forall j x d, (-1000 <= j)%Z -> generic_format radix2 (FLT_exp (-1074) 53) d ->
  bpow radix2 j <= x -> bpow radix2 j <= d -> 2 * Rabs (x - d) < bpow radix2 (j - 52) -> rnd x = d.
Proof.
  intros j x d K F X D N.
  assert (G : bpow radix2 j <= rnd x). { rewrite <- (rnd_id (bpow radix2 j)) by (apply pow_format; exact K). apply rnd_mono. exact X. }
  destruct (on_grid j d K F D) as [a A]. destruct (on_grid j (rnd x) K (rnd_pt x) G) as [b B].
  assert (P : Rabs (rnd x - x) <= Rabs (d - x)).
  { destruct (round_N_pt radix2 (FLT_exp (-1074) 53) (fun z => negb (Z.even z)) x) as [_ Q]. apply Q. exact F. }
  assert (T : Rabs (rnd x - d) < bpow radix2 (j - 52)).
  { replace (rnd x - d) with ((rnd x - x) + (x - d)) by ring. eapply Rle_lt_trans; [apply Rabs_triang|]. rewrite (Rabs_minus_sym d x) in P. lra. }
  assert (C : (b = a)%Z).
  { set (w := bpow radix2 (j - 52)) in *. assert (W : 0 < w) by apply bpow_gt_0. rewrite A, B in T. replace (IZR b * w - IZR a * w) with (IZR (b - a) * w) in T by (rewrite minus_IZR; ring).
    rewrite Rabs_mult, (Rabs_pos_eq w) in T by lra. rewrite <- abs_IZR in T.
    destruct (Z.eq_dec b a) as [|NE]; [assumption|exfalso]. assert (O : 1 <= IZR (Z.abs (b - a))) by (apply IZR_le; lia). nra. }
  rewrite A, B, C. reflexivity.
Qed.

(** ** fromSec as a function of the real value of its argument *)
Lemma floor_eq : forall x, finite x -> f64_floor x = Some (Zfloor (val x)).
Proof. intros x F. destruct (floor_ok x F) as [n [E [A B]]]. rewrite E. f_equal. symmetry. apply Zfloor_imp. rewrite plus_IZR. lra. Qed.
Lemma round_eq : forall x, finite x -> 0 <= val x -> f64_round x = Some (Zfloor (val x + 1 / 2)).
Proof. intros x F P. destruct (round_ok x F P) as [n [E [A B]]]. rewrite E. f_equal. symmetry. apply Zfloor_imp. rewrite plus_IZR. lra. Qed.
Definition frac_ns (r : R) : R := rnd (rnd (r - IZR (Zfloor r)) * 1000000000).
Definition sec_ns (r : R) : Z := (Zfloor r * 10 ^ 9 + Zfloor (frac_ns r + 1 / 2))%Z.
Lemma big_1e20 : 100000000000000000000 <= big.
Proof. unfold big. apply IZR_le. vm_compute. discriminate. Qed.
Lemma rnd_1 : rnd 1 = 1.
Proof. apply (rnd_Z 1). lia. Qed.
Lemma rnd_1e9 : rnd 1000000000 = 1000000000.
Proof. apply (rnd_Z 1000000000). lia. Qed.
Lemma rnd_in : forall a b x, rnd a = a -> rnd b = b -> a <= x <= b -> a <= rnd x <= b.
Proof. intros a b x A B H. split; [rewrite <- A|rewrite <- B]; apply rnd_mono; lra. Qed.
Lemma frac_bounds : forall r, 0 <= frac_ns r <= 1000000000.
Proof.
  intros r. pose proof (Zfloor_lb r). pose proof (Zfloor_ub r). unfold frac_ns. set (f := r - IZR (Zfloor r)).
  assert (0 <= f <= 1) by (unfold f; lra). assert (A : 0 <= rnd f <= 1) by (apply (rnd_in 0 1 _ rnd_0 rnd_1); lra).
  apply (rnd_in 0 1000000000 _ rnd_0 rnd_1e9). nra.
Qed.
Lemma frac_err : forall r, Rabs (frac_ns r - (r - IZR (Zfloor r)) * 1000000000) <= 3 / 10000000.
Proof.
  intros r. pose proof (Zfloor_lb r). pose proof (Zfloor_ub r). unfold frac_ns. set (f := r - IZR (Zfloor r)).
  assert (B : 0 <= f <= 1) by (unfold f; lra). assert (A : 0 <= rnd f <= 1) by (apply (rnd_in 0 1 _ rnd_0 rnd_1); lra).
  pose proof (rnd_err f) as E1. pose proof (rnd_err (rnd f * 1000000000)) as E2. rewrite (Rabs_pos_eq f) in E1 by lra. rewrite (Rabs_pos_eq (rnd f * 1000000000)) in E2 by lra.
  pose proof eta_u as EU. rewrite uro_val in *. apply Rabs_le_inv in E1. apply Rabs_le_inv in E2. apply Rabs_le. lra.
Qed.
Lemma sec_ns_err : forall r, IZR (sec_ns r) - 1 / 2 - 3 / 10000000 <= r * 1000000000 <= IZR (sec_ns r) + 1 / 2 + 3 / 10000000.
Proof.
  intros r. unfold sec_ns. rewrite plus_IZR, mult_IZR. pose proof (Zfloor_lb (frac_ns r + 1 / 2)). pose proof (Zfloor_ub (frac_ns r + 1 / 2)).
  pose proof (frac_err r) as E. apply Rabs_le_inv in E. change (IZR (10 ^ 9)) with 1000000000. lra.
Qed.
Lemma sec_ns_mono : forall a b, a <= b -> (sec_ns a <= sec_ns b)%Z.
Proof.
  intros a b H. unfold sec_ns. pose proof (Zfloor_le a b H) as F. pose proof (frac_bounds a) as A. pose proof (frac_bounds b) as B.
  assert (B0 : (0 <= Zfloor (frac_ns b + 1 / 2))%Z) by (apply Zfloor_lub; lra).
  assert (A1 : (Zfloor (frac_ns a + 1 / 2) <= 10 ^ 9)%Z). { assert (Zfloor (frac_ns a + 1 / 2) < 10 ^ 9 + 1)%Z; [|lia]. apply lt_IZR. eapply Rle_lt_trans; [apply Zfloor_lb|]. change (IZR (10 ^ 9 + 1)) with 1000000001. lra. }
  destruct (Z.eq_dec (Zfloor a) (Zfloor b)) as [E|E]; [|lia].
  assert (Zfloor (frac_ns a + 1 / 2) <= Zfloor (frac_ns b + 1 / 2))%Z; [|lia]. apply Zfloor_le. apply Rplus_le_compat_r. unfold frac_ns. rewrite E. apply rnd_mono. apply Rmult_le_compat_r; [lra|]. apply rnd_mono. lra.
Qed.
Lemma below_2_32 : forall d, generic_format radix2 (FLT_exp (-1074) 53) d -> d < 4294967296 -> d <= 4294967296 - / 2097152.
Proof.
  intros d F H. destruct (Rle_or_lt 2147483648 d) as [G|G]; [|lra].
  destruct (on_grid 31 d ltac:(lia) F) as [m M]; [rewrite bpowp by lia; exact G|]. replace (bpow radix2 (31 - 52)) with (/ 2097152) in M by (cbn; lra).
  rewrite M in H |- *. assert (m < 4294967296 * 2097152)%Z by (apply lt_IZR; rewrite mult_IZR; lra). assert (IZR m <= 4294967296 * 2097152 - 1) by (rewrite <- mult_IZR, <- minus_IZR; apply IZR_le; lia). lra.
Qed.
Lemma sec_ns_range : forall d, generic_format radix2 (FLT_exp (-1074) 53) d -> 0 <= d < 4294967296 -> (0 <= sec_ns d < 2 ^ 32 * 10 ^ 9)%Z.
Proof.
  intros d F [H0 H1]. split.
  - unfold sec_ns. assert (0 <= Zfloor d)%Z by (apply Zfloor_lub; lra). pose proof (frac_bounds d). assert (0 <= Zfloor (frac_ns d + 1 / 2))%Z by (apply Zfloor_lub; lra). lia.
  - apply lt_IZR. pose proof (sec_ns_err d) as E. pose proof (below_2_32 d F H1). change (IZR (2 ^ 32 * 10 ^ 9)) with 4294967296000000000. lra.
Qed.
Lemma from_sec_ok : forall d, finite d -> 0 <= val d < 4294967296 -> from_sec d = Ok (sec_ns (val d)).
Proof.
  intros d F B. unfold from_sec. rewrite floor_eq by exact F. set (f := Zfloor (val d)).
  assert (F0 : (0 <= f)%Z) by (apply Zfloor_lub; lra). assert (F1 : (f < 4294967296)%Z) by (apply lt_IZR; eapply Rle_lt_trans; [apply Zfloor_lb|lra]).
  replace ((f <? - 2 ^ 63)%Z || (2 ^ 63 <=? f)%Z) with false by (symmetry; apply orb_false_iff; split; [apply Z.ltb_ge|apply Z.leb_gt]; lia).
  replace ((f <? 0)%Z || (2 ^ 32 <=? f)%Z) with false by (symmetry; apply orb_false_iff; split; [apply Z.ltb_ge|apply Z.leb_gt]; lia).
  destruct (fofZ_exact f ltac:(lia)) as [Ff Vf]. destruct (fofZ_exact (10 ^ 9) ltac:(lia)) as [Fn Vn].
  pose proof (Zfloor_lb (val d)) as L. pose proof (Zfloor_ub (val d)) as U. fold f in L, U. pose proof big_1e20 as BG.
  destruct (fsub_ok d (f64_of_Z f) F Ff) as [Fs Vs]; [rewrite Vf; apply Rabs_le; lra|]. rewrite Vf in Vs.
  assert (A : 0 <= rnd (val d - IZR f) <= 1) by (apply (rnd_in 0 1 _ rnd_0 rnd_1); lra).
  destruct (fmul_ok _ _ Fs Fn) as [Fm Vm]; [rewrite Vs, Vn; change (IZR (10 ^ 9)) with 1000000000; apply Rabs_le; lra|]. rewrite Vs, Vn in Vm. change (IZR (10 ^ 9)) with 1000000000 in Vm.
  change (rnd (rnd (val d - IZR f) * 1000000000)) with (frac_ns (val d)) in Vm. pose proof (frac_bounds (val d)) as FB.
  rewrite round_eq by (try exact Fm; rewrite Vm; lra). rewrite Vm. set (n := Zfloor (frac_ns (val d) + 1 / 2)).
  assert (N0 : (0 <= n)%Z) by (apply Zfloor_lub; lra). assert (N1 : (n <= 10 ^ 9)%Z). { assert (n < 10 ^ 9 + 1)%Z; [|lia]. apply lt_IZR. eapply Rle_lt_trans; [apply Zfloor_lb|]. change (IZR (10 ^ 9 + 1)) with 1000000001. lra. }
  replace ((n <? 0)%Z || (2 ^ 32 <=? n)%Z) with false by (symmetry; apply orb_false_iff; split; [apply Z.ltb_ge|apply Z.leb_gt]; lia).
  f_equal. pose proof (sec_ns_range (val d) (val_format d F) B) as R. unfold sec_ns in R |- *. fold f n in R |- *.
  pose proof (Z.div_mod n (10 ^ 9) ltac:(lia)) as D. pose proof (Z.mod_pos_bound n (10 ^ 9) ltac:(lia)) as M.
  set (k := (n / 10 ^ 9)%Z) in *. set (r := (n mod 10 ^ 9)%Z) in *. clearbody f n k r. rewrite Z.mod_small by lia. lia.
Qed.
(** a value of 2^32 and a bit more is refused *)
Lemma from_sec_high : forall d, finite d -> 4294967296 <= val d <= 4294967297 -> from_sec d = Throw RuntimeError ETimeRange.
Proof.
  intros d F B. unfold from_sec. rewrite floor_eq by exact F. set (f := Zfloor (val d)).
  assert (F0 : (4294967296 <= f)%Z) by (apply Zfloor_lub; lra). assert (F1 : (f <= 4294967297)%Z) by (apply le_IZR; eapply Rle_trans; [apply Zfloor_lb|lra]).
  replace ((f <? - 2 ^ 63)%Z || (2 ^ 63 <=? f)%Z) with false by (symmetry; apply orb_false_iff; split; [apply Z.ltb_ge|apply Z.leb_gt]; lia).
  replace ((f <? 0)%Z || (2 ^ 32 <=? f)%Z) with true by (symmetry; apply orb_true_iff; right; apply Z.leb_le; lia). reflexivity.
Qed.

(** ** to_sec *)
Definition secR (t : Z) : R := IZR (t / 10 ^ 9) + rnd (IZR (t mod 10 ^ 9) / 1000000000).
Lemma nano_bounds : forall n, (0 <= n < 10 ^ 9)%Z -> 0 <= rnd (IZR n / 1000000000) <= 1 /\ Rabs (rnd (IZR n / 1000000000) - IZR n / 1000000000) <= / 18014398509481984.
Proof.
  intros n [H0 H1]. assert (A : 0 <= IZR n) by (apply IZR_le; lia). assert (B : IZR n < 1000000000) by (apply (IZR_lt n (10 ^ 9)); exact H1).
  split.
  - apply (rnd_in 0 1 _ rnd_0 rnd_1). lra.
  - pose proof (rnd_ulp 0 (IZR n / 1000000000) ltac:(lia)) as E. replace (bpow radix2 0) with 1 in E by reflexivity. replace (bpow radix2 (0 - 54)) with (/ 18014398509481984) in E by (cbn; lra).
    apply E. rewrite Rabs_pos_eq by lra. lra.
Qed.
Lemma secR_err : forall t, Rabs (secR t - IZR t / 1000000000) <= / 18014398509481984.
Proof.
  intros t. destruct (nano_bounds (t mod 10 ^ 9) (Z.mod_pos_bound t (10 ^ 9) ltac:(lia))) as [_ E]. unfold secR.
  pose proof (Z.div_mod t (10 ^ 9) ltac:(lia)) as D. apply (f_equal IZR) in D. rewrite plus_IZR, mult_IZR in D. change (IZR (10 ^ 9)) with 1000000000 in D.
  rewrite D. set (a := rnd _) in *. set (n := IZR (t mod 10 ^ 9)) in *. set (s := IZR (t / 10 ^ 9)) in *. replace (s + a - (1000000000 * s + n) / 1000000000) with (a - n / 1000000000) by field. exact E.
Qed.
Lemma secR_range : forall t, (0 <= t)%Z -> IZR (t / 10 ^ 9) <= secR t <= IZR (t / 10 ^ 9) + 1 /\ 0 <= IZR (t / 10 ^ 9).
Proof.
  intros t H. destruct (nano_bounds (t mod 10 ^ 9) (Z.mod_pos_bound t (10 ^ 9) ltac:(lia))) as [E _]. unfold secR.
  split; [lra|]. apply IZR_le. apply Z.div_pos; lia.
Qed.
Lemma secR_mono : forall a b, (a <= b)%Z -> secR a <= secR b.
Proof.
  intros a b H. destruct (Z.eq_dec (a / 10 ^ 9) (b / 10 ^ 9)) as [E|E].
  - unfold secR. rewrite E. apply Rplus_le_compat_l. apply rnd_mono. apply Rmult_le_compat_r; [lra|]. apply IZR_le.
    pose proof (Z.div_mod a (10 ^ 9) ltac:(lia)). pose proof (Z.div_mod b (10 ^ 9) ltac:(lia)). lia.
  - assert (D : (a / 10 ^ 9 + 1 <= b / 10 ^ 9)%Z). { pose proof (Z.div_le_mono a b (10 ^ 9) ltac:(lia) H). lia. }
    destruct (nano_bounds (a mod 10 ^ 9) (Z.mod_pos_bound a (10 ^ 9) ltac:(lia))) as [EA _]. destruct (nano_bounds (b mod 10 ^ 9) (Z.mod_pos_bound b (10 ^ 9) ltac:(lia))) as [EB _].
    unfold secR. apply IZR_le in D. rewrite plus_IZR in D. lra.
Qed.
Lemma to_sec_ok : forall t, (0 <= t < 2 ^ 32 * 10 ^ 9)%Z -> finite (to_sec t) /\ val (to_sec t) = rnd (secR t) /\ 0 <= val (to_sec t) <= 4294967296.
Proof.
  intros t H. unfold to_sec. pose proof (Z.mod_pos_bound t (10 ^ 9) ltac:(lia)) as M. pose proof (Z.div_mod t (10 ^ 9) ltac:(lia)) as D.
  assert (S0 : (0 <= t / 10 ^ 9)%Z) by (apply Z.div_pos; lia). assert (S1 : (t / 10 ^ 9 < 4294967296)%Z) by (apply Z.div_lt_upper_bound; lia).
  destruct (secR_range t ltac:(lia)) as [R0 R1]. pose proof big_1e20 as BG.
  destruct (fofZ_exact (t / 10 ^ 9) ltac:(lia)) as [F1 V1]. destruct (fofZ_exact (t mod 10 ^ 9) ltac:(lia)) as [F2 V2]. destruct (fofZ_exact (10 ^ 9) ltac:(lia)) as [F3 V3].
  change (IZR (10 ^ 9)) with 1000000000 in V3. destruct (nano_bounds (t mod 10 ^ 9) M) as [NB _].
  assert (A : 0 <= IZR (t mod 10 ^ 9)) by (apply IZR_le; lia). assert (B : IZR (t mod 10 ^ 9) < 1000000000) by (apply (IZR_lt _ (10 ^ 9)); lia).
  destruct (fdiv_ok _ _ F2 F3) as [F4 V4]; [lra|rewrite V2, V3; apply Rabs_le; lra|]. rewrite V2, V3 in V4.
  assert (S2 : IZR (t / 10 ^ 9) + 1 <= 4294967296) by (rewrite <- (plus_IZR _ 1); apply IZR_le; lia).
  destruct (fadd_ok _ _ F1 F4) as [F5 V5]; [rewrite V1, V4; apply Rabs_le; lra|]. rewrite V1, V4 in V5. fold (secR t) in V5.
  split; [exact F5|]. split; [exact V5|]. rewrite V5. apply (rnd_in 0 4294967296 _ rnd_0); [apply (rnd_Z 4294967296); lia|lra].
Qed.

(** ** the trip *)
Lemma trip : forall t, (0 <= t < 2 ^ 32 * 10 ^ 9)%Z ->
  py_time t = (if Rlt_dec (rnd (secR t)) 4294967296 then Ok (sec_ns (rnd (secR t))) else Throw RuntimeError ETimeRange).
Proof.
  intros t H. destruct (to_sec_ok t H) as [F [V B]]. unfold py_time. rewrite <- V.
  destruct (Rlt_dec (val (to_sec t)) 4294967296) as [L|L].
  - apply from_sec_ok; [exact F|lra].
  - apply from_sec_high; [exact F|lra].
Qed.
Lemma trip_err : forall k t, (0 <= k <= 32)%Z -> (0 <= t < 2 ^ k * 10 ^ 9)%Z -> Rabs (rnd (secR t) - IZR t / 1000000000) <= bpow radix2 (k - 54) + / 18014398509481984.
Proof.
  intros k t K H. pose proof (secR_err t) as E.
  assert (S1 : (t / 10 ^ 9 < 2 ^ k)%Z) by (apply Z.div_lt_upper_bound; lia).
  destruct (secR_range t ltac:(lia)) as [R0 R1].
  assert (S2 : IZR (t / 10 ^ 9) + 1 <= bpow radix2 k) by (rewrite bpowp by lia; rewrite <- (plus_IZR _ 1); apply IZR_le; lia).
  assert (A : Rabs (rnd (secR t) - secR t) <= bpow radix2 (k - 54)).
  { destruct (Req_dec (secR t) (bpow radix2 k)) as [Q|Q].
    - rewrite Q, rnd_id by (apply pow_format; lia). replace (bpow radix2 k - bpow radix2 k) with 0 by ring. rewrite Rabs_R0. apply bpow_ge_0.
    - apply rnd_ulp; [lia|]. rewrite Rabs_pos_eq by lra. lra. }
  replace (rnd (secR t) - IZR t / 1000000000) with ((rnd (secR t) - secR t) + (secR t - IZR t / 1000000000)) by ring.
  eapply Rle_trans; [apply Rabs_triang|]. lra.
Qed.
Lemma Zabs_lt_R : forall a b n, Rabs (IZR a - IZR b) < IZR (n + 1) -> (Z.abs (a - b) <= n)%Z.
Proof. intros a b n H. rewrite <- minus_IZR, <- abs_IZR in H. apply lt_IZR in H. lia. Qed.
Lemma trip_close : forall k t n, (0 <= k <= 32)%Z -> (0 <= t < 2 ^ k * 10 ^ 9)%Z -> bpow radix2 (k - 54) * 1000000000 <= IZR (n + 1) - 1 / 2 - 1 / 1000000 ->
  (Z.abs (sec_ns (rnd (secR t)) - t) <= n)%Z.
Proof.
  intros k t n K H N. pose proof (trip_err k t K H) as E. pose proof (sec_ns_err (rnd (secR t))) as G. apply Rabs_le_inv in E.
  set (d := rnd (secR t)) in *. set (w := bpow radix2 (k - 54)) in *. apply Zabs_lt_R. apply Rabs_def1; lra.
Qed.
Lemma ok_below : forall t, (0 <= t < 2 ^ 32 * 10 ^ 9 - 238)%Z -> rnd (secR t) < 4294967296.
Proof.
  intros t H. pose proof (trip_err 32 t ltac:(lia) ltac:(lia)) as E. replace (bpow radix2 (32 - 54)) with (/ 4194304) in E by (cbn; lra). apply Rabs_le_inv in E.
  assert (IZR t <= 4294967296000000000 - 239) by (rewrite <- minus_IZR; apply IZR_le; lia). lra.
Qed.
Lemma high_above : forall t, (2 ^ 32 * 10 ^ 9 - 238 <= t < 2 ^ 32 * 10 ^ 9)%Z -> rnd (secR t) = 4294967296.
Proof.
  intros t H. pose proof (secR_err t) as E. apply Rabs_le_inv in E.
  assert (A : 4294967296000000000 - 238 <= IZR t) by (rewrite <- minus_IZR; apply IZR_le; lia). assert (B : IZR t < 4294967296000000000) by (apply IZR_lt; lia).
  apply (near_grid 31); [lia|apply (pow_format 32); lia|rewrite bpowp by lia; change (IZR (2 ^ 31)) with 2147483648; lra|rewrite bpowp by lia; change (IZR (2 ^ 31)) with 2147483648; lra|].
  replace (bpow radix2 (31 - 52)) with (/ 2097152) by (cbn; lra). assert (Rabs (secR t - 4294967296) <= 2381 / 10000000000) by (apply Rabs_le; lra). lra.
Qed.
Lemma trip_iff : forall t, (0 <= t < 2 ^ 32 * 10 ^ 9)%Z -> (t < 2 ^ 32 * 10 ^ 9 - 238)%Z /\ py_time t = Ok (sec_ns (rnd (secR t))) \/
  (2 ^ 32 * 10 ^ 9 - 238 <= t)%Z /\ py_time t = Throw RuntimeError ETimeRange.
Proof.
  intros t H. rewrite trip by exact H. destruct (Z.lt_ge_cases t (2 ^ 32 * 10 ^ 9 - 238)) as [L|L]; [left|right]; (split; [exact L|]).
  - destruct (Rlt_dec _ _) as [_|N]; [reflexivity|]. exfalso. apply N. apply ok_below. lia.
  - destruct (Rlt_dec _ _) as [N|_]; [|reflexivity]. exfalso. rewrite high_above in N by lia. lra.
Qed.
Lemma trip_exact : forall t, (0 <= t < 2 ^ 23 * 10 ^ 9)%Z -> py_time t = Ok t.
Proof.
  intros t H. destruct (trip_iff t ltac:(lia)) as [[_ E]|[N _]]; [|lia]. rewrite E. f_equal.
  pose proof (trip_close 23 t 0 ltac:(lia) H) as C. replace (bpow radix2 (23 - 54)) with (/ 2147483648) in C by (cbn; lra). change (IZR (0 + 1)) with 1 in C. specialize (C ltac:(lra)). lia.
Qed.
Lemma trip_mono : forall a b a' b', (0 <= a <= b)%Z -> (b < 2 ^ 32 * 10 ^ 9)%Z -> py_time a = Ok a' -> py_time b = Ok b' -> (a' <= b')%Z.
Proof.
  intros a b a' b' H B A1 B1. destruct (trip_iff a ltac:(lia)) as [[_ E]|[_ E]]; [|rewrite E in A1; discriminate].
  destruct (trip_iff b ltac:(lia)) as [[_ F]|[_ F]]; [|rewrite F in B1; discriminate].
  rewrite E in A1. rewrite F in B1. injection A1 as <-. injection B1 as <-. apply sec_ns_mono. apply rnd_mono. apply secR_mono. lia.
Qed.
Lemma trip_idem : forall t t', (0 <= t < 2 ^ 32 * 10 ^ 9)%Z -> py_time t = Ok t' -> py_time t' = Ok t'.
Proof.
  intros t t' H P. destruct (trip_iff t H) as [[L E]|[_ E]]; [|rewrite E in P; discriminate]. rewrite E in P. injection P as <-.
  pose proof (ok_below t ltac:(lia)) as Dm. set (d := rnd (secR t)) in *. assert (F : generic_format radix2 (FLT_exp (-1074) 53) d) by apply rnd_pt.
  assert (D0 : 0 <= d) by (unfold d; rewrite <- rnd_0; apply rnd_mono; destruct (secR_range t ltac:(lia)); lra).
  pose proof (sec_ns_range d F (conj D0 Dm)) as R. set (t' := sec_ns d) in *.
  destruct (Z.lt_ge_cases t' (2 ^ 23 * 10 ^ 9)) as [S|S]; [apply trip_exact; lia|].
  destruct (Z.eq_dec t' (2 ^ 23 * 10 ^ 9)) as [Q|Q]; [rewrite Q; vm_compute; reflexivity|].
  assert (G : 8388608 <= d).
  { destruct (Rle_or_lt 8388608 d) as [X|X]; [exact X|exfalso]. assert (sec_ns d <= sec_ns 8388608)%Z by (apply sec_ns_mono; lra).
    assert (sec_ns 8388608 = 2 ^ 23 * 10 ^ 9)%Z; [|unfold t' in *; lia]. unfold sec_ns, frac_ns. rewrite (Zfloor_IZR 8388608).
    replace (8388608 - 8388608) with 0 by ring. rewrite rnd_0, Rmult_0_l, rnd_0. rewrite (Zfloor_imp 0) by (cbn; lra). reflexivity. }
  pose proof (sec_ns_err d) as SE. fold t' in SE. pose proof (secR_err t') as TE. apply Rabs_le_inv in TE.
  assert (ID : rnd (secR t') = d).
  { apply (near_grid 23); [lia|exact F| |rewrite bpowp by lia; exact G|].
    - rewrite bpowp by lia. unfold secR. destruct (nano_bounds (t' mod 10 ^ 9) (Z.mod_pos_bound t' (10 ^ 9) ltac:(lia))) as [[N0 _] _].
      assert (IZR (2 ^ 23) <= IZR (t' / 10 ^ 9)); [|lra]. apply IZR_le. apply Z.div_le_lower_bound; lia.
    - replace (bpow radix2 (23 - 52)) with (/ 536870912) by (cbn; lra). assert (Rabs (secR t' - d) <= 6 / 10000000000) by (apply Rabs_le; lra). lra. }
  rewrite trip by exact R. rewrite ID. destruct (Rlt_dec d 4294967296); [reflexivity|contradiction].
Qed.
