(** * A concrete buffer for the rounding theorems *)
From Coq Require Import ZArith Bool Reals Floats.SpecFloat List String Lia Lra.
From Flocq Require Import Zaux Raux Defs BinarySingleNaN.
From Verif Require Import RosTime Scalar LinearMath Cache BufferCore SpecCore Instances SpecRound FloatErr RoundNorm ExampleBuffers.
Import ListNotations.
Open Scope R_scope.

(** a link as plain data *)
Definition show_link (o : option (storage D64 string)) : option (list f64 * string) :=
  match o with
  | Some d => Some ([qx (st_rot d); qy (st_rot d); qz (st_rot d); qw (st_rot d); vx (st_trans d); vy (st_trans d); vz (st_trans d)], st_frame d)
  | None => None
  end.
Lemma show_link_inv : forall (s : core D64) t n d x, link s t n = Some d -> show_link (link s t n) = x -> show_link (Some d) = x.
Proof. intros s t n d x H E. rewrite H in E. exact E. Qed.

(** small integers in binary64 *)
Definition finiteb (x : f64) : bool := match x with S754_zero _ => true | S754_finite _ _ _ => valid_binary prec64 emax64 x | _ => false end.
Lemma finiteb_ok : forall x, finiteb x = true -> finite x.
Proof. intros [s|s| |s m e] H; try discriminate; [exact I|exact H]. Qed.
Lemma val_int : forall n, finiteb (f64_of_Z n) = true -> rnd (IZR n) = IZR n -> Rabs (IZR n) <= big -> val (f64_of_Z n) = IZR n.
Proof. intros n _ H B. destruct (fofZ_ok n B) as (_ & V). rewrite V. exact H. Qed.
Lemma val_0 : val (S754_zero false) = 0. Proof. reflexivity. Qed.
Ltac vals := rewrite val_SF2R; unfold SF2R, Defs.F2R; cbn; lra.

Lemma Forall_climb : forall {S} (s : core S) t (names : list string) (P : storage S string -> Prop),
  (forall n d, In n names -> link s t n = Some d -> P d /\ In (st_frame d) names) ->
  forall n ds c, climbs s t n ds c -> In n names -> Forall P ds.
Proof.
  intros S s t names P H n ds c C. induction C as [n|n d ds c L C IH]; intros Hn; constructor.
  - apply (H n d Hn L).
  - apply IH. apply (H n d Hn L).
Qed.

(** (integer quaternion, integer translation) as doubles *)
Definition ints (l : list Z) : list f64 := map f64_of_Z l.
Lemma link_ok_ints : forall (d : storage D64 string) x y z w a b c f k L,
  show_link (Some d) = Some (ints [x; y; z; w; a; b; c]%Z, f) ->
  (forall n, In n [x; y; z; w; a; b; c]%Z -> finiteb (f64_of_Z n) = true /\ val (f64_of_Z n) = IZR n) ->
  IZR (x * x + y * y + z * z + w * w) <= k * k -> IZR (a * a + b * b + c * c) <= L * L -> 0 <= k -> 0 <= L -> link_ok k L d.
Proof.
  intros d x y z w a b c f k L E V Hk HL K0 L0. unfold show_link in E. unfold D64 in *. injection E as E1 E2 E3 E4 E5 E6 E7 _.
  unfold link_ok. split; [|split; [|split]].
  - unfold qfinite. rewrite E1, E2, E3, E4. repeat split; apply finiteb_ok, V; cbn; auto 9.
  - unfold vfinite. rewrite E5, E6, E7. repeat split; apply finiteb_ok, V; cbn; auto 9.
  - unfold qnorm, qval. cbn [qx qy qz qw]. rewrite E1, E2, E3, E4. destruct (V x) as (_ & ->); [cbn; auto 9|]. destruct (V y) as (_ & ->); [cbn; auto 9|].
    destruct (V z) as (_ & ->); [cbn; auto 9|]. destruct (V w) as (_ & ->); [cbn; auto 9|].
    rewrite <- !mult_IZR, <- !plus_IZR. rewrite <- (sqrt_square k K0). apply sqrt_le_1_alt. exact Hk.
  - unfold vnorm, vval. cbn [vx vy vz]. rewrite E5, E6, E7. destruct (V a) as (_ & ->); [cbn; auto 9|]. destruct (V b) as (_ & ->); [cbn; auto 9|].
    destruct (V c) as (_ & ->); [cbn; auto 9|].
    rewrite <- !mult_IZR, <- !plus_IZR. rewrite <- (sqrt_square L L0). apply sqrt_le_1_alt. exact HL.
Qed.
Lemma small_ints : forall n, In n [0; 1; 2; 3; 4; 5; 6; 7; 8; 9; 10]%Z -> finiteb (f64_of_Z n) = true /\ val (f64_of_Z n) = IZR n.
Proof.
  intros n H. cbn [In] in H. repeat (destruct H as [<-|H]); try contradiction; (split; [vm_compute; reflexivity|]);
    (match goal with |- val ?t = _ => let v := eval vm_compute in t in change t with v end); vals.
Qed.

Local Opaque robot f64_of_Z.
Definition robot_names : list string := ["base"; "odom"; "map"; "world"; "beacon"]%string.
Local Transparent robot f64_of_Z.
Lemma robot_link_base : show_link (link robot 15%Z "base") = Some (ints [0;0;0;1; 2;0;0]%Z, "odom"%string). Proof. vmr. Qed.
Lemma robot_link_odom : show_link (link robot 15%Z "odom") = Some (ints [0;0;0;1; 5;0;0]%Z, "map"%string). Proof. vmr. Qed.
Lemma robot_link_map : show_link (link robot 15%Z "map") = Some (ints [0;0;1;0; 0;5;0]%Z, "world"%string). Proof. vmr. Qed.
Lemma robot_link_world : show_link (link robot 15%Z "world") = None. Proof. vmr. Qed.
Lemma robot_link_beacon : show_link (link robot 15%Z "beacon") = Some (ints [0;0;1;0; 0;2;0]%Z, "map"%string). Proof. vmr. Qed.
Local Opaque robot f64_of_Z.
Lemma robot_rounding :
  reachable robot /\ (exists m, lookupTransform robot "base"%string "beacon"%string 15%Z = Ok m) /\
  (forall n, In n ["base"; "beacon"]%string -> forall ds c, climbs robot 15%Z n ds c -> Forall (link_ok (1 + / IZR (2 ^ 20)) 10) ds) /\
  / IZR (2 ^ 900) <= 10 <= IZR (2 ^ 979).
Proof.
  split; [exact robot_reachable|]. split; [apply ok_by; vmr|]. split.
  - intros n Hn ds c C. apply (Forall_climb robot 15%Z robot_names (link_ok (1 + / IZR (2 ^ 20)) 10)) with (n := n) (c := c); [|exact C|destruct Hn as [<-|[<-|[]]]; cbn; auto 9].
    clear n Hn ds c C. intros n d Hn L.
    assert (K : 0 <= 1 + / IZR (2 ^ 20)) by (change (2 ^ 20)%Z with 1048576%Z; lra).
    assert (K1 : 1 <= (1 + / IZR (2 ^ 20)) * (1 + / IZR (2 ^ 20))) by (change (2 ^ 20)%Z with 1048576%Z; lra).
    assert (Sm : forall x y z w a b c f, show_link (Some d) = Some (ints [x; y; z; w; a; b; c]%Z, f) ->
      (forall n, In n [x; y; z; w; a; b; c]%Z -> In n [0; 1; 2; 3; 4; 5; 6; 7; 8; 9; 10]%Z) -> (x * x + y * y + z * z + w * w = 1)%Z -> (a * a + b * b + c * c <= 100)%Z ->
      In f robot_names -> link_ok (1 + / IZR (2 ^ 20)) 10 d /\ In (st_frame d) robot_names).
    { intros x y z w a b c f E I1 I2 I3 I4. split.
      - apply (link_ok_ints d x y z w a b c f); [exact E|intros m Hm; apply small_ints, I1, Hm|rewrite I2; exact K1| |exact K|lra].
        apply IZR_le in I3. lra.
      - unfold show_link in E. injection E as _ _ _ _ _ _ _ Ef. rewrite Ef. exact I4. }
    unfold robot_names in Hn. cbn [In] in Hn. destruct Hn as [<-|[<-|[<-|[<-|[<-|[]]]]]].
    + pose proof (show_link_inv _ _ _ _ _ L robot_link_base) as R1. clear L. eapply Sm; [exact R1|intros m Hm; clear - Hm; cbn in *; intuition|reflexivity|lia|cbn; auto 9].
    + pose proof (show_link_inv _ _ _ _ _ L robot_link_odom) as R2. clear L. eapply Sm; [exact R2|intros m Hm; clear - Hm; cbn in *; intuition|reflexivity|lia|cbn; auto 9].
    + pose proof (show_link_inv _ _ _ _ _ L robot_link_map) as R3. clear L. eapply Sm; [exact R3|intros m Hm; clear - Hm; cbn in *; intuition|reflexivity|lia|cbn; auto 9].
    + pose proof (show_link_inv _ _ _ _ _ L robot_link_world) as R4. clear L. discriminate R4.
    + pose proof (show_link_inv _ _ _ _ _ L robot_link_beacon) as R5. clear L. eapply Sm; [exact R5|intros m Hm; clear - Hm; cbn in *; intuition|reflexivity|lia|cbn; auto 9].
  - split.
    + apply Rle_trans with (/ 1); [apply Rinv_le_contravar; [lra|apply IZR_le; intros C; discriminate C]|lra].
    + apply IZR_le. intros C; discriminate C.
Qed.
