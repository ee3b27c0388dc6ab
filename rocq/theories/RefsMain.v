(** * Proofs about reference counts: reading a message *)
From Coq Require Import ZArith Bool List String Lia.
From Verif Require Import RosTime Scalar LinearMath Cache BufferCore PyTime PyRefs SpecRefs RefsProofs.
Import ListNotations.
Open Scope string_scope.
Open Scope list_scope.
Open Scope nat_scope.

Section P.
Context {S : Scalar}.
Notation heap := (@heap S).
Notation code := (@code S).

Lemma gs : forall (h hk hk' : heap) l, gained h hk l -> same hk hk' -> gained h hk' l.
Proof. intros h hk hk' l G Sm. rewrite <- (app_nil_r l). exact (gained_trans _ _ _ _ _ G (same_gained _ _ Sm)). Qed.
Lemma is_there : forall (h : heap) a d, is h a d -> get h a <> None.
Proof. intros h a d (o & E & _). congruence. Qed.
Lemma holds_there : forall (h : heap) a n v, holds h a n v -> get h a <> None.
Proof. intros h a n v (o & E & _). congruence. Qed.

Lemma borrow_step : forall (h hk : heap) l o n h' r, sound h -> gained h hk l -> borrow o n hk = Some (h', r) ->
  gained h h' l /\ (h_err h' = false -> h_err hk = false) /\
  (forall v, r = Some v -> get h v <> None -> exists a, o = Some a /\ holds h a n v).
Proof.
  intros h hk l o n h' r Hs G E. destruct (borrow_inv hk o n h' r (gained_sound _ _ _ G Hs) E) as (Sm & Er & Hv).
  split; [exact (gs _ _ _ _ G Sm)|]. split; [exact Er|]. intros v V Gv.
  destruct (Hv v V (gained_some _ _ _ _ G Gv)) as (a & A & B). exists a. split; [exact A|]. apply (gained_holds h hk l _ _ _ G). exact B.
Qed.

(** borrow an attribute and read it *)
Lemma num_step : forall (h hk h1 h2 : heap) l o n r x, sound h -> gained h hk l -> borrow o n hk = Some (h1, r) -> num r h1 = Some (h2, x) ->
  gained h h2 l /\ (h_err h2 = false -> h_err hk = false /\ exists a, o = Some a /\ has h a n (DNum x)).
Proof.
  intros h hk h1 h2 l o n r x Hs G E1 E2. destruct (borrow_step h hk l o n h1 r Hs G E1) as (G1 & R1 & V1).
  destruct (num_inv h1 r h2 x E2) as (S2 & V2). split; [exact (gs _ _ _ _ G1 S2)|]. intros Q. destruct (V2 Q) as (Q1 & v & V & I).
  split; [exact (R1 Q1)|]. apply (gained_is h h1 l _ _ G1) in I. destruct (V1 v V (is_there _ _ _ I)) as (a & A & B).
  exists a. split; [exact A|]. exists v. split; assumption.
Qed.
Lemma text_step : forall (h hk h1 h2 : heap) l o n r x, sound h -> gained h hk l -> borrow o n hk = Some (h1, r) -> text r h1 = Some (h2, x) ->
  gained h h2 l /\ (h_err h2 = false -> h_err hk = false) /\ exists a, o = Some a /\ has h a n (DText x).
Proof.
  intros h hk h1 h2 l o n r x Hs G E1 E2. destruct (borrow_step h hk l o n h1 r Hs G E1) as (G1 & R1 & V1).
  destruct (text_inv h1 r h2 x E2) as (-> & v & V & I). split; [exact G1|]. split; [exact R1|].
  apply (gained_is h h1 l _ _ G1) in I. destruct (V1 v V (is_there _ _ _ I)) as (a & A & B).
  exists a. split; [exact A|]. exists v. split; assumption.
Qed.
Lemma stamp_step : forall (h hk h1 h2 : heap) l o n r q, sound h -> gained h hk l -> borrow o n hk = Some (h1, r) -> stamp_of r h1 = Some (h2, q) ->
  gained h h2 l /\ (h_err h2 = false -> h_err hk = false) /\
  forall w, q = Some w -> exists a t, o = Some a /\ has h a n (DTime t) /\ w = py_time t.
Proof.
  intros h hk h1 h2 l o n r q Hs G E1 E2. destruct (borrow_step h hk l o n h1 r Hs G E1) as (G1 & R1 & V1).
  destruct (stamp_inv h1 r h2 q E2) as (S2 & R2 & V2). split; [exact (gs _ _ _ _ G1 S2)|]. split; [intros Q; exact (R1 (R2 Q))|].
  intros w W. destruct (V2 w W) as (v & t & V & I & T). apply (gained_is h h1 l _ _ G1) in I.
  destruct (V1 v V (is_there _ _ _ I)) as (a & A & B). exists a, t. split; [exact A|]. split; [exists v; split; assumption|exact T].
Qed.
Lemma check_step : forall (h hk h' : heap) l strict cls k names o b, sound h -> holds h (Glob GGeometry) cls (Glob k) -> gained h hk l ->
  check_type strict cls names o hk = Some (h', b) ->
  gained h h' (l ++ [Glob k]) /\ (b = true -> h_err h' = false -> h_err hk = false).
Proof.
  intros h hk h' l strict cls k names o b Hs Hc G E.
  destruct (check_inv hk strict cls k names o h' b (gained_sound _ _ _ G Hs) (proj2 (gained_holds h hk l _ _ _ G) Hc) E) as [G2 R].
  split; [exact (gained_trans _ _ _ _ _ G G2)|exact R].
Qed.

Definition V := Glob GVectorClass. Definition Q := Glob GQuaternionClass. Definition N := Glob GNone.

Ltac nxt E h1 r X := match type of E with context [bind ?c ?f ?h] => unfold bind at 1 in E; destruct (c h) as [[h1 r]|] eqn:X; [|discriminate E] end.

Theorem read_inv : forall strict p (h h' : heap) om r, sound h -> modules h -> read_transform strict p h = Some (h', (om, r)) ->
  (exists l, In l [[]; [V]; [V; Q]; [V; Q; N]] /\ gained h h' l) /\
  match om with
  | None => r = Raised \/ r = Terminated
  | Some m => r = Returned N /\ gained h h' [V; Q; N] /\
      (h_err h' = false -> h_err h = false /\
        exists m0, message h p m0 /\ py_time (tm_stamp m0) = Ok (tm_stamp m) /\
          tm_frame m0 = tm_frame m /\ tm_child m0 = tm_child m /\ tm_trans m0 = tm_trans m /\ tm_rot m0 = tm_rot m)
  end.
Proof.
  intros strict p h h' om r Hs M E. pose proof M as (MV & MQ & _ & _ & MN & _).
  unfold read_transform in E.
  nxt E h1 header X1. destruct (borrow_step h h [] _ _ _ _ Hs (gained_refl h) X1) as (G1 & R1 & F1).
  nxt E h2 c X2. nxt E h3 child X3. destruct (text_step h h1 h2 h3 [] _ _ _ _ Hs G1 X2 X3) as (G3 & R3 & ac & Ac & F3).
  nxt E h4 f X4. nxt E h5 frame X5. destruct (text_step h h3 h4 h5 [] _ _ _ _ Hs G3 X4 X5) as (G5 & R5 & ah & Ah & F5).
  nxt E h6 st X6. nxt E h7 t X7. destruct (stamp_step h h5 h6 h7 [] _ _ _ _ Hs G5 X6 X7) as (G7 & R7 & F7).
  assert (early : forall l hh x, In l [[]; [V]; [V; Q]; [V; Q; N]] -> gained h hh l -> x = Raised \/ x = Terminated ->
    Some (hh, (@None (tmsg S), x)) = Some (h', (om, r)) ->
    (exists l, In l [[]; [V]; [V; Q]; [V; Q; N]] /\ gained h h' l) /\ match om with None => r = Raised \/ r = Terminated
      | Some m => r = Returned N /\ gained h h' [V; Q; N] /\
      (h_err h' = false -> h_err h = false /\
        exists m0, message h p m0 /\ py_time (tm_stamp m0) = Ok (tm_stamp m) /\
          tm_frame m0 = tm_frame m /\ tm_child m0 = tm_child m /\ tm_trans m0 = tm_trans m /\ tm_rot m0 = tm_rot m) end).
  { intros l hh x L G B Y. injection Y as <- <- <-. split; [exists l; split; assumption|exact B]. }
  destruct t as [[t|cl e|]|]; [|apply (early [] h7 Terminated); [left; reflexivity|exact G7|right; reflexivity|exact E]|discriminate E
    |apply (early [] h7 Raised); [left; reflexivity|exact G7|left; reflexivity|exact E]].
  nxt E h8 mt X8. destruct (borrow_step h h7 [] _ _ _ _ Hs G7 X8) as (G8 & R8 & F8).
  nxt E h9 tr X9. destruct (borrow_step h h8 [] _ _ _ _ Hs G8 X9) as (G9 & R9 & F9).
  nxt E h10 ok X10. destruct (check_step h h9 h10 [] _ _ _ _ _ _ Hs MV G9 X10) as (G10 & R10). cbn [app] in G10.
  destruct ok; [|apply (early [V] (set_err h10 true) Raised); [right; left; reflexivity|intros b; rewrite get_set_err; apply G10|left; reflexivity|exact E]].
  nxt E h11 ox X11. nxt E h12 x X12. destruct (num_step h h10 h11 h12 _ _ _ _ _ Hs G10 X11 X12) as (G12 & F12).
  nxt E h13 oy X13. nxt E h14 y X14. destruct (num_step h h12 h13 h14 _ _ _ _ _ Hs G12 X13 X14) as (G14 & F14).
  nxt E h15 oz X15. nxt E h16 z X16. destruct (num_step h h14 h15 h16 _ _ _ _ _ Hs G14 X15 X16) as (G16 & F16).
  nxt E h17 ro X17. destruct (borrow_step h h16 _ _ _ _ _ Hs G16 X17) as (G17 & R17 & F17).
  nxt E h18 ok X18. destruct (check_step h h17 h18 _ _ _ _ _ _ _ Hs MQ G17 X18) as (G18 & R18). cbn [app] in G18.
  destruct ok; [|apply (early [V; Q] (set_err h18 true) Raised); [right; right; left; reflexivity|intros b; rewrite get_set_err; apply G18|left; reflexivity|exact E]].
  nxt E h19 oa X19. nxt E h20 a X20. destruct (num_step h h18 h19 h20 _ _ _ _ _ Hs G18 X19 X20) as (G20 & F20).
  nxt E h21 ob X21. nxt E h22 b X22. destruct (num_step h h20 h21 h22 _ _ _ _ _ Hs G20 X21 X22) as (G22 & F22).
  nxt E h23 oc X23. nxt E h24 cc X24. destruct (num_step h h22 h23 h24 _ _ _ _ _ Hs G22 X23 X24) as (G24 & F24).
  nxt E h25 od X25. nxt E h26 d X26. destruct (num_step h h24 h25 h26 _ _ _ _ _ Hs G24 X25 X26) as (G26 & F26).
  nxt E h27 u X27. unfold INCREF in X27. unfold incref in X27.
  destruct (get h26 (Glob GNone)) as [on|] eqn:EN; [|discriminate X27]. injection X27 as <- _.
  assert (G27 : gained h (put h26 (Glob GNone) (Some (with_refs on (Datatypes.S (o_refs on))))) [V; Q; N]).
  { change [V; Q; N] with ([V; Q] ++ [N]). apply (gained_trans _ _ _ _ _ G26). intros k. rewrite get_put by congruence. cbn [occurrences].
    destruct (addr_eqb k (Glob GNone)) eqn:B.
    - apply addr_eqb_eq in B. subst k. rewrite EN. unfold with_refs. change (addr_eqb (Glob GNone) N) with true. cbv iota. rewrite Nat.add_1_r. reflexivity.
    - unfold N. rewrite B. destruct (get h26 k) as [[r0 c0 sl0 d0]|]; [|reflexivity]. cbn [o_refs o_class o_slots o_data]. rewrite Nat.add_0_r. reflexivity. }
  unfold ret in E. injection E as <- <- <-. split; [exists [V; Q; N]; split; [right; right; right; left; reflexivity|exact G27]|].
  split; [reflexivity|]. split; [exact G27|]. intros Z0. assert (Z : h_err h26 = false) by exact Z0. clear Z0.
  destruct (F26 Z) as (Z24 & a26 & A26 & H26). destruct (F24 Z24) as (Z22 & a24 & A24 & H24). destruct (F22 Z22) as (Z20 & a22 & A22 & H22). destruct (F20 Z20) as (Z18 & a20 & A20 & H20).
  pose proof (R17 (R18 eq_refl Z18)) as Z16.
  destruct (F16 Z16) as (Z14 & a16 & A16 & H16). destruct (F14 Z14) as (Z12 & a14 & A14 & H14). destruct (F12 Z12) as (Z10 & a12 & A12 & H12).
  pose proof (R1 (R3 (R5 (R7 (R8 (R9 (R10 eq_refl Z10))))))) as Z0. split; [exact Z0|].
  assert (there : forall a n d, has h a n d -> get h a <> None) by (intros k n dd (v & Hv & _); exact (holds_there _ _ _ _ Hv)).
  subst ro. injection A24 as <-. injection A22 as <-. injection A20 as <-.
  subst tr. injection A14 as <-. injection A12 as <-.
  destruct (F17 a26 eq_refl (there _ _ _ H26)) as (mr & Mr & Hr). subst mt.
  destruct (F9 a16 eq_refl (there _ _ _ H16)) as (mr' & Mr' & Ht). injection Mr' as <-.
  destruct (F8 mr eq_refl (holds_there _ _ _ _ Hr)) as (p1 & P1 & Hm). injection P1 as <-.
  destruct (F7 (Ok t) eq_refl) as (ah' & t0 & Ah' & Hst & Et). subst header. injection Ah' as <-.
  injection Ac as <-.
  destruct (F1 ah eq_refl (there _ _ _ F5)) as (p2 & P2 & Hh). injection P2 as <-.
  exists (mkTmsg t0 frame child (V3 x y z) (Q4 a b cc d)). split; [|cbn [tm_stamp tm_frame tm_child tm_trans tm_rot]; auto 10].
  exists ah, mr, a16, a26. cbn [tm_stamp tm_frame tm_child tm_trans tm_rot vx vy vz qx qy qz qw]. repeat (split; [assumption|]). assumption.
Qed.

(** ** Forward *)
Lemma borrow_fwd : forall (h hk : heap) l a n v, sound h -> gained h hk l -> holds h a n v ->
  exists h', borrow (Some a) n hk = Some (h', Some v) /\ gained h h' l /\ h_err h' = h_err hk.
Proof.
  intros h hk l a n v Hs G H. destruct (borrow_held hk a n v (gained_sound _ _ _ G Hs) (proj2 (gained_holds h hk l _ _ _ G) H)) as (h' & E & Sm & R).
  exists h'. split; [exact E|]. split; [exact (gs _ _ _ _ G Sm)|exact R].
Qed.
Lemma num_fwd : forall (h hk : heap) l a n x, sound h -> gained h hk l -> has h a n (DNum x) ->
  exists h' v, borrow (Some a) n hk = Some (h', Some v) /\ num (Some v) h' = Some (h', x) /\ gained h h' l /\ h_err h' = h_err hk.
Proof.
  intros h hk l a n x Hs G (v & H & I). destruct (borrow_fwd h hk l a n v Hs G H) as (h' & E & G' & R). exists h', v.
  split; [exact E|]. split; [apply num_is; apply (gained_is h h' l _ _ G'); exact I|]. split; assumption.
Qed.
Lemma text_fwd : forall (h hk : heap) l a n x, sound h -> gained h hk l -> has h a n (DText x) ->
  exists h' v, borrow (Some a) n hk = Some (h', Some v) /\ text (Some v) h' = Some (h', x) /\ gained h h' l /\ h_err h' = h_err hk.
Proof.
  intros h hk l a n x Hs G (v & H & I). destruct (borrow_fwd h hk l a n v Hs G H) as (h' & E & G' & R). exists h', v.
  split; [exact E|]. split; [apply text_is; apply (gained_is h h' l _ _ G'); exact I|]. split; assumption.
Qed.
Lemma stamp_fwd : forall (h hk : heap) l a n t, sound h -> gained h hk l -> has h a n (DTime t) ->
  exists h1 h' v, borrow (Some a) n hk = Some (h1, Some v) /\ stamp_of (Some v) h1 = Some (h', Some (py_time t)) /\ gained h h' l /\ h_err h' = h_err hk.
Proof.
  intros h hk l a n x Hs G (v & H & I). destruct (borrow_fwd h hk l a n v Hs G H) as (h1 & E & G' & R).
  destruct (stamp_is h1 v x (proj2 (gained_is h h1 l _ _ G') I)) as (h' & E2 & Sm & R2). exists h1, h', v.
  split; [exact E|]. split; [exact E2|]. split; [exact (gs _ _ _ _ G' Sm)|congruence].
Qed.
Lemma check_fwd : forall (h hk : heap) l cls k names a n v, sound h -> gained h hk l -> holds h (Glob GGeometry) cls (Glob k) -> holds h a n v ->
  (forall n, In n names -> exists d, has h a n d) ->
  exists h', check_type false cls names (Some a) hk = Some (h', true) /\ gained h h' (l ++ [Glob k]) /\ h_err h' = h_err hk.
Proof.
  intros h hk l cls k names a n v Hs G Hc Hv Hn.
  destruct (check_held hk cls k names a n v (gained_sound _ _ _ G Hs) (proj2 (gained_holds h hk l _ _ _ G) Hc) (proj2 (gained_holds h hk l _ _ _ G) Hv)) as (h' & E & G' & R).
  { intros m Hm. destruct (Hn m Hm) as (d & w & Hw & _). exists w. apply (gained_holds h hk l _ _ _ G). exact Hw. }
  exists h'. split; [exact E|]. split; [exact (gained_trans _ _ _ _ _ G G')|exact R].
Qed.

Lemma bind_step : forall A B (c : code A) (f : A -> code B) h h1 a, c h = Some (h1, a) -> bind c f h = f a h1.
Proof. intros A B c f h h1 a E. unfold bind. rewrite E. reflexivity. Qed.

Theorem read_fwd : forall p m (h : heap), sound h -> modules h -> message h p m ->
  match py_time (tm_stamp m) with
  | Ok t => exists h', read_transform false p h = Some (h', (Some (mkTmsg t (tm_frame m) (tm_child m) (tm_trans m) (tm_rot m)), Returned N)) /\
      gained h h' [V; Q; N] /\ h_err h' = h_err h
  | Throw _ _ => exists h', read_transform false p h = Some (h', (None, Terminated)) /\ gained h h' [] /\ h_err h' = h_err h
  | UB => read_transform false p h = None
  end.
Proof.
  intros p m h Hs M (he & tf & tr & ro & Hhe & Hch & Htf & Hfr & Hst & Htr & Hro & Hx & Hy & Hz & Ha & Hb & Hc & Hd).
  pose proof M as (MV & MQ & _ & _ & MN & _).
  destruct (borrow_fwd h h [] _ _ _ Hs (gained_refl h) Hhe) as (h1 & E1 & G1 & R1).
  destruct (text_fwd h h1 [] _ _ _ Hs G1 Hch) as (h3 & v3 & E2 & E3 & G3 & R3).
  destruct (text_fwd h h3 [] _ _ _ Hs G3 Hfr) as (h5 & v5 & E4 & E5 & G5 & R5).
  destruct (stamp_fwd h h5 [] _ _ _ Hs G5 Hst) as (h6 & h7 & v7 & E6 & E7 & G7 & R7).
  assert (Pre : forall k, read_transform false p h = k -> k = read_transform false p h) by (intros k X; symmetry; exact X). clear Pre.
  unfold read_transform.
  rewrite (bind_step _ _ _ _ _ _ _ E1), (bind_step _ _ _ _ _ _ _ E2), (bind_step _ _ _ _ _ _ _ E3), (bind_step _ _ _ _ _ _ _ E4),
    (bind_step _ _ _ _ _ _ _ E5), (bind_step _ _ _ _ _ _ _ E6), (bind_step _ _ _ _ _ _ _ E7).
  destruct (py_time (tm_stamp m)) as [t|cl e|].
  2: { exists h7. split; [reflexivity|]. split; [exact G7|congruence]. }
  2: { reflexivity. }
  destruct (borrow_fwd h h7 [] _ _ _ Hs G7 Htf) as (h8 & E8 & G8 & R8).
  destruct (borrow_fwd h h8 [] _ _ _ Hs G8 Htr) as (h9 & E9 & G9 & R9).
  destruct Hx as (vx0 & Hx & Ix). pose proof (ex_intro _ vx0 (conj Hx Ix) : has h tr "x" (DNum (vx (tm_trans m)))) as Hx'.
  destruct (check_fwd h h9 [] "Vector3" GVectorClass ["x"; "y"; "z"] tr "x" vx0 Hs G9 MV Hx) as (h10 & E10 & G10 & R10).
  { intros n [<-|[<-|[<-|[]]]]; eexists; eassumption. }
  cbn [app] in G10.
  destruct (num_fwd h h10 _ _ _ _ Hs G10 Hx') as (h11 & w11 & E11 & F11 & G11 & R11).
  destruct (num_fwd h h11 _ _ _ _ Hs G11 Hy) as (h12 & w12 & E12 & F12 & G12 & R12).
  destruct (num_fwd h h12 _ _ _ _ Hs G12 Hz) as (h13 & w13 & E13 & F13 & G13 & R13).
  destruct (borrow_fwd h h13 _ _ _ _ Hs G13 Hro) as (h14 & E14 & G14 & R14).
  destruct Ha as (va0 & Ha & Ia). pose proof (ex_intro _ va0 (conj Ha Ia) : has h ro "x" (DNum (qx (tm_rot m)))) as Ha'.
  destruct (check_fwd h h14 _ "Quaternion" GQuaternionClass ["w"; "x"; "y"; "z"] ro "x" va0 Hs G14 MQ Ha) as (h15 & E15 & G15 & R15).
  { intros n [<-|[<-|[<-|[<-|[]]]]]; eexists; eassumption. }
  cbn [app] in G15.
  destruct (num_fwd h h15 _ _ _ _ Hs G15 Ha') as (h16 & w16 & E16 & F16 & G16 & R16).
  destruct (num_fwd h h16 _ _ _ _ Hs G16 Hb) as (h17 & w17 & E17 & F17 & G17 & R17).
  destruct (num_fwd h h17 _ _ _ _ Hs G17 Hc) as (h18 & w18 & E18 & F18 & G18 & R18).
  destruct (num_fwd h h18 _ _ _ _ Hs G18 Hd) as (h19 & w19 & E19 & F19 & G19 & R19).
  rewrite (bind_step _ _ _ _ _ _ _ E8), (bind_step _ _ _ _ _ _ _ E9), (bind_step _ _ _ _ _ _ _ E10). cbv iota.
  rewrite (bind_step _ _ _ _ _ _ _ E11), (bind_step _ _ _ _ _ _ _ F11), (bind_step _ _ _ _ _ _ _ E12), (bind_step _ _ _ _ _ _ _ F12),
    (bind_step _ _ _ _ _ _ _ E13), (bind_step _ _ _ _ _ _ _ F13), (bind_step _ _ _ _ _ _ _ E14), (bind_step _ _ _ _ _ _ _ E15). cbv iota.
  rewrite (bind_step _ _ _ _ _ _ _ E16), (bind_step _ _ _ _ _ _ _ F16), (bind_step _ _ _ _ _ _ _ E17), (bind_step _ _ _ _ _ _ _ F17),
    (bind_step _ _ _ _ _ _ _ E18), (bind_step _ _ _ _ _ _ _ F18), (bind_step _ _ _ _ _ _ _ E19), (bind_step _ _ _ _ _ _ _ F19).
  pose proof (gained_some _ _ _ _ G19 MN) as EN. destruct (get h19 (Glob GNone)) as [on|] eqn:EN1; [clear EN|congruence].
  assert (I : INCREF (Glob GNone) h19 = Some (put h19 (Glob GNone) (Some (with_refs on (Datatypes.S (o_refs on)))), tt)) by (unfold INCREF, incref; rewrite EN1; reflexivity).
  rewrite (bind_step _ _ _ _ _ _ _ I). unfold ret. eexists. split; [|split].
  - destruct m as [st fr ch [x y z] [a b c d]]. reflexivity.
  - change [V; Q; N] with ([V; Q] ++ [N]). apply (gained_trans _ _ _ _ _ G19). intros k. rewrite get_put by congruence. cbn [occurrences].
    destruct (addr_eqb k (Glob GNone)) eqn:B.
    + apply addr_eqb_eq in B. subst k. rewrite EN1. unfold with_refs. change (addr_eqb (Glob GNone) N) with true. cbv iota. rewrite Nat.add_1_r. reflexivity.
    + unfold N. rewrite B. destruct (get h19 k) as [[r0 c0 sl0 d0]|]; [|reflexivity]. cbn [o_refs o_class o_slots o_data]. rewrite Nat.add_0_r. reflexivity.
  - rewrite err_put. congruence.
Qed.

(** Reading [k] times: the classes gain [k] references each, and so does None. *)
Theorem read_many : forall k p m (h : heap) t, sound h -> modules h -> message h p m -> py_time (tm_stamp m) = Ok t ->
  exists h', read_times k p h = Some h' /\
    forall a, get h' a = match get h a with
                         | Some o => Some (mkObj (o_refs o + k * occurrences a [V; Q; N]) (o_class o) (o_slots o) (o_data o))
                         | None => None end.
Proof.
  induction k as [|k IH]; intros p m h t Hs M Hm Ht.
  - exists h. split; [reflexivity|]. intros a. rewrite (gained_refl h a) at 1. destruct (get h a) as [o|]; reflexivity.
  - pose proof (read_fwd p m h Hs M Hm) as F. rewrite Ht in F. destruct F as (h1 & E & G & _).
    assert (Hm1 : message h1 p m).
    { destruct Hm as (he & tf & tr & ro & H). exists he, tf, tr, ro.
      assert (Z : forall a n d, has h a n d -> has h1 a n d) by (intros a n d (v & A & B); exists v; split; [apply (gained_holds h h1 _ _ _ _ G); exact A|apply (gained_is h h1 _ _ _ G); exact B]).
      assert (Z2 : forall a n v, holds h a n v -> holds h1 a n v) by (intros a n v A; apply (gained_holds h h1 _ _ _ _ G); exact A).
      repeat match goal with H : _ /\ _ |- _ => destruct H end. repeat split; auto. }
    destruct (IH p m h1 t (gained_sound _ _ _ G Hs) (gained_modules _ _ _ G M) Hm1 Ht) as (h' & E' & G').
    exists h'. split; [cbn [read_times]; rewrite E; exact E'|]. intros a. rewrite G', G. destruct (get h a) as [o|]; [|reflexivity].
    cbn [o_refs o_class o_slots o_data]. f_equal. f_equal. lia.
Qed.
End P.
