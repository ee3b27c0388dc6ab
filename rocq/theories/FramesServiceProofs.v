(** * Proofs about FramesService.v *)
From Coq Require Import ZArith Bool List String Lia PeanoNat.
From Verif Require Import RosTime Scalar LinearMath Cache BufferCore SpecCore Introspection FramesService SpecFramesService.
Import ListNotations.
Open Scope nat_scope.

Section P.
Context {S : Scalar}.
Implicit Types (h : list (event S)) (s : node S).
Lemma uses_snoc h e b : uses (h ++ [e]) b = uses h b ++ match e with Use b' o => if Nat.eqb b b' then [o] else [] | _ => [] end.
Proof. unfold uses. rewrite flat_map_app. cbn. rewrite app_nil_r. reflexivity. Qed.
Lemma in_snoc (h : list (event S)) e x : In x (h ++ [e]) <-> In x h \/ x = e.
Proof. rewrite in_app_iff. cbn. intuition. Qed.
Definition id_of (e : event S) : nat := match e with Begin b _ _ | Finish b | Use b _ | Destroy b => b end.

Record inv (py : bool) (h : list (event S)) (s : node S) : Prop := mkInv {
  i_fresh : forall e, In e h -> id_of e < n_next s;
  i_low : forall b p, n_buf s b = Some p -> b < n_next s;
  i_begun : forall b p c, n_buf s b = Some (p, c) -> holds h b c;
  i_once : forall b d ct d' ct', In (Begin b d ct) h -> In (Begin b d' ct') h -> d = d' /\ ct = ct';
  i_building : forall b a c, n_buf s b = Some (Building a, c) -> ~ In (Finish b) h /\ ~ In (Destroy b) h;
  i_true : forall b c, n_buf s b = Some (Building true, c) -> debug h b;
  i_false : forall b c, n_buf s b = Some (Building false, c) -> debug h b -> exists b', debug h b' /\ In (Finish b') h;
  i_server : forall b, n_server s = Some b -> (exists c, n_buf s b = Some (Alive, c)) /\ debug h b /\ In (Finish b) h /\ (py = false -> ~ In (Destroy b) h) }.

Lemma uses_fresh py h s b : inv py h s -> n_next s <= b -> uses h b = [].
Proof.
  intros I L. pose proof (i_fresh _ _ _ I) as F. clear I. unfold uses. induction h as [|e h IH]; [reflexivity|].
  cbn. rewrite IH by (intros x X; apply F; right; exact X).
  specialize (F e (or_introl eq_refl)). destruct e; try reflexivity. cbn in F. destruct (Nat.eqb_spec b b0); [lia|reflexivity].
Qed.
Lemma holds_other h e b c : holds h b c -> (forall o, e <> Use b o) -> holds (h ++ [e]) b c.
Proof.
  intros (d & ct & B & E) N. exists d, ct. split; [apply in_snoc; left; exact B|]. rewrite uses_snoc.
  assert (X : match e with Use b' o => if Nat.eqb b b' then [o] else [] | _ => [] end = @nil (core_op S)).
  { destruct e; try reflexivity. destruct (Nat.eqb_spec b b0); [subst; exfalso; eapply N; reflexivity|reflexivity]. }
  rewrite X, app_nil_r. exact E.
Qed.
Lemma holds_use h b o c : holds h b c -> holds (h ++ [Use b o]) b (SpecCore.step c o).
Proof.
  intros (d & ct & B & E). exists d, ct. split; [apply in_snoc; left; exact B|]. rewrite uses_snoc, Nat.eqb_refl.
  unfold run. rewrite fold_left_app. cbn. f_equal. exact E.
Qed.
Lemma debug_snoc h e b : debug h b -> debug (h ++ [e]) b.
Proof. intros (ct & D). exists ct. apply in_snoc. left. exact D. Qed.
Lemma debug_back h e b : debug (h ++ [e]) b -> (forall ct, e <> Begin b true ct) -> debug h b.
Proof. intros (ct & D) N. apply in_snoc in D. destruct D as [D|D]; [exists ct; exact D|]. exfalso. exact (N ct (eq_sym D)). Qed.

Lemma inv0 py : inv py [] (@node0 S).
Proof. constructor; cbn; intros; try contradiction; discriminate. Qed.

Ltac up := unfold upd in *; cbn [n_buf n_next n_server n_raised] in *.
Lemma inv_step py h s e s' : inv py h s -> nstep py s e = Some s' -> inv py (h ++ [e]) s'.
Proof.
  intros I E. destruct e as [b d ct|b|b o|b]; cbn [nstep] in E.
  - (* Begin *)
    destruct (Nat.ltb_spec b (n_next s)) as [L|L]; [discriminate|]. injection E as <-.
    assert (NB : n_buf s b = None). { destruct (n_buf s b) eqn:X; [|reflexivity]. apply (i_low _ _ _ I) in X. lia. }
    constructor; up.
    + intros e X. apply in_snoc in X. destruct X as [X| ->]; [apply (i_fresh _ _ _ I) in X; lia|cbn; lia].
    + intros x p X. destruct (Nat.eqb_spec x b); [lia|]. apply (i_low _ _ _ I) in X. lia.
    + intros x p c X. destruct (Nat.eqb_spec x b) as [->|N].
      * injection X as _ <-. exists d, ct. split; [apply in_snoc; right; reflexivity|]. rewrite uses_snoc, (uses_fresh _ _ _ _ I L). reflexivity.
      * apply holds_other; [exact (i_begun _ _ _ I _ _ _ X)|discriminate].
    + intros x d1 c1 d2 c2 X Y. apply in_snoc in X, Y.
      destruct X as [X|X], Y as [Y|Y].
      * exact (i_once _ _ _ I _ _ _ _ _ X Y).
      * injection Y as -> -> ->. apply (i_fresh _ _ _ I) in X. cbn in X. lia.
      * injection X as -> -> ->. apply (i_fresh _ _ _ I) in Y. cbn in Y. lia.
      * injection X as -> -> ->. injection Y as -> ->. split; reflexivity.
    + intros x a c X. destruct (Nat.eqb_spec x b) as [->|N].
      * split; intros Y; apply in_snoc in Y; (destruct Y as [Y|Y]; [|discriminate]); apply (i_fresh _ _ _ I) in Y; cbn in Y; lia.
      * split; intros Y; apply in_snoc in Y; (destruct Y as [Y|Y]; [|discriminate]); revert Y; apply (i_building _ _ _ I _ _ _ X).
    + intros x c X. destruct (Nat.eqb_spec x b) as [->|N].
      * injection X as X _. destruct d; [|discriminate]. exists ct. apply in_snoc. right. reflexivity.
      * apply debug_snoc. exact (i_true _ _ _ I _ _ X).
    + intros x c X D. destruct (Nat.eqb_spec x b) as [->|N].
      * injection X as X _. destruct D as (c0 & D). apply in_snoc in D. destruct D as [D|D]; [apply (i_fresh _ _ _ I) in D; cbn in D; lia|].
        injection D as D _. subst d. cbn in X. destruct (n_server s) as [w|] eqn:W; [|discriminate].
        destruct (i_server _ _ _ I w W) as (_ & D' & F & _). exists w. split; [apply debug_snoc; exact D'|apply in_snoc; left; exact F].
      * assert (D0 : debug h x) by (apply (debug_back _ _ _ D); intros ct0 Q; injection Q as Q _; congruence).
        destruct (i_false _ _ _ I _ _ X D0) as (w & D' & F). exists w. split; [apply debug_snoc; exact D'|apply in_snoc; left; exact F].
    + intros x W. destruct (i_server _ _ _ I x W) as ((c & A) & D & F & G).
      split; [|split; [apply debug_snoc; exact D|split; [apply in_snoc; left; exact F|]]].
      * exists c. destruct (Nat.eqb_spec x b) as [->|N]; [congruence|exact A].
      * intros P X. apply in_snoc in X. destruct X as [X|X]; [exact (G P X)|discriminate].
  - (* Finish *)
    destruct (n_buf s b) as [[[a|] c]|] eqn:B; try discriminate.
    assert (Low : b < n_next s) by exact (i_low _ _ _ I _ _ B).
    assert (G : forall bufs srv ra,
      (forall x p cx, bufs x = Some (p, cx) -> (x = b /\ p = Alive /\ cx = c) \/ (x <> b /\ n_buf s x = Some (p, cx))) ->
      (forall x, srv = Some x -> (exists cx, bufs x = Some (Alive, cx)) /\ ((x = b /\ debug h b) \/ n_server s = Some x)) ->
      inv py (h ++ [Finish b]) (mkNode (n_next s) bufs srv ra)).
    { intros bufs srv ra HB HS. constructor; up.
      - intros e X. apply in_snoc in X. destruct X as [X| ->]; [exact (i_fresh _ _ _ I _ X)|exact Low].
      - intros x [p cx] X. destruct (HB _ _ _ X) as [(-> & _)|(_ & Y)]; [exact Low|exact (i_low _ _ _ I _ _ Y)].
      - intros x p cx X. apply holds_other; [|discriminate]. destruct (HB _ _ _ X) as [(-> & _ & ->)|(_ & Y)]; [exact (i_begun _ _ _ I _ _ _ B)|exact (i_begun _ _ _ I _ _ _ Y)].
      - intros x d1 c1 d2 c2 X Y. apply in_snoc in X, Y. destruct X as [X|X]; [|discriminate]. destruct Y as [Y|Y]; [|discriminate]. exact (i_once _ _ _ I _ _ _ _ _ X Y).
      - intros x a0 cx X. destruct (HB _ _ _ X) as [(_ & Z & _)|(N & Z)]; [discriminate|]. destruct (i_building _ _ _ I _ _ _ Z) as (U & V).
        split; intros Y; apply in_snoc in Y; (destruct Y as [Y|Y]; [|congruence]); contradiction.
      - intros x cx X. destruct (HB _ _ _ X) as [(_ & Z & _)|(N & Z)]; [discriminate|]. apply debug_snoc. exact (i_true _ _ _ I _ _ Z).
      - intros x cx X D. destruct (HB _ _ _ X) as [(_ & Z & _)|(N & Z)]; [discriminate|].
        destruct (i_false _ _ _ I _ _ Z (debug_back _ _ _ D ltac:(discriminate))) as (w & D' & F). exists w. split; [apply debug_snoc; exact D'|apply in_snoc; left; exact F].
      - intros x W. destruct (HS x W) as (A & H). split; [exact A|]. destruct H as [(-> & D)|H].
        + split; [apply debug_snoc; exact D|]. split; [apply in_snoc; right; reflexivity|]. intros P X. apply in_snoc in X. destruct X as [X|X]; [|discriminate].
          revert X. apply (i_building _ _ _ I _ _ _ B).
        + destruct (i_server _ _ _ I x H) as (_ & D & F & G). split; [apply debug_snoc; exact D|]. split; [apply in_snoc; left; exact F|].
          intros P X. apply in_snoc in X. destruct X as [X|X]; [exact (G P X)|discriminate]. }
    assert (HB : forall x p cx, upd (n_buf s) b (Some (Alive, c)) x = Some (p, cx) -> (x = b /\ p = Alive /\ cx = c) \/ (x <> b /\ n_buf s x = Some (p, cx))).
    { intros x p cx X. unfold upd in X. destruct (Nat.eqb_spec x b) as [->|N]; [left; injection X as <- <-; auto|right; auto]. }
    assert (HS : forall x, n_server s = Some x -> (exists cx, upd (n_buf s) b (Some (Alive, c)) x = Some (Alive, cx)) /\ ((x = b /\ debug h b) \/ n_server s = Some x)).
    { intros x W. destruct (i_server _ _ _ I x W) as ((cx & A) & _). split; [|right; exact W].
      exists cx. unfold upd. destruct (Nat.eqb_spec x b) as [->|N]; [congruence|exact A]. }
    destruct a.
    + destruct (n_server s) as [w|] eqn:W.
      * destruct py; injection E as <-.
        -- apply G.
           ++ intros x p cx X. unfold upd in X. destruct (Nat.eqb_spec x b) as [->|N]; [discriminate|right; auto].
           ++ intros x W'. destruct (i_server _ _ _ I x (eq_trans W W')) as ((cx & A) & _). split; [|right; congruence].
              exists cx. unfold upd. destruct (Nat.eqb_spec x b) as [->|N]; [congruence|exact A].
        -- apply G; [exact HB|]. exact HS.
      * injection E as <-. apply G; [exact HB|]. intros x W'. injection W' as <-. split; [|left; split; [reflexivity|exact (i_true _ _ _ I _ _ B)]].
        exists c. unfold upd. rewrite Nat.eqb_refl. reflexivity.
    + injection E as <-. apply G; [exact HB|exact HS].
  - (* Use *)
    destruct (n_buf s b) as [[[a|] c]|] eqn:B; try discriminate. injection E as <-.
    constructor; up.
    + intros e X. apply in_snoc in X. destruct X as [X| ->]; [exact (i_fresh _ _ _ I _ X)|exact (i_low _ _ _ I _ _ B)].
    + intros x p X. destruct (Nat.eqb_spec x b) as [->|N]; [exact (i_low _ _ _ I _ _ B)|exact (i_low _ _ _ I _ _ X)].
    + intros x p cx X. destruct (Nat.eqb_spec x b) as [->|N].
      * injection X as _ <-. apply holds_use. exact (i_begun _ _ _ I _ _ _ B).
      * apply holds_other; [exact (i_begun _ _ _ I _ _ _ X)|]. intros o' Q. injection Q as Q _. congruence.
    + intros x d1 c1 d2 c2 X Y. apply in_snoc in X, Y. destruct X as [X|X]; [|discriminate]. destruct Y as [Y|Y]; [|discriminate]. exact (i_once _ _ _ I _ _ _ _ _ X Y).
    + intros x a cx X. destruct (Nat.eqb_spec x b) as [->|N]; [discriminate|]. destruct (i_building _ _ _ I _ _ _ X) as (U & V).
      split; intros Y; apply in_snoc in Y; (destruct Y as [Y|Y]; [|discriminate]); contradiction.
    + intros x cx X. destruct (Nat.eqb_spec x b) as [->|N]; [discriminate|]. apply debug_snoc. exact (i_true _ _ _ I _ _ X).
    + intros x cx X D. destruct (Nat.eqb_spec x b) as [->|N]; [discriminate|].
      destruct (i_false _ _ _ I _ _ X (debug_back _ _ _ D ltac:(discriminate))) as (w & D' & F). exists w. split; [apply debug_snoc; exact D'|apply in_snoc; left; exact F].
    + intros x W. destruct (i_server _ _ _ I x W) as ((cx & A) & D & F & G0).
      split; [|split; [apply debug_snoc; exact D|split; [apply in_snoc; left; exact F|]]].
      * destruct (Nat.eqb_spec x b) as [->|N]; eauto.
      * intros P X. apply in_snoc in X. destruct X as [X|X]; [exact (G0 P X)|discriminate].
  - (* Destroy *)
    destruct (n_buf s b) as [[[a|] c]|] eqn:B; try discriminate.
    assert (G : forall bufs srv ra,
      (forall x p, bufs x = Some p -> n_buf s x = Some p) -> (bufs b = None \/ py = true) ->
      (forall x a, bufs x <> Some (Building a, c) \/ x <> b) ->
      (forall x, srv = Some x -> n_server s = Some x /\ (bufs x = n_buf s x) /\ (py = false -> x <> b)) ->
      inv py (h ++ [Destroy b]) (mkNode (n_next s) bufs srv ra)).
    { intros bufs srv ra HB _ _ HS. constructor; up.
      - intros e X. apply in_snoc in X. destruct X as [X| ->]; [exact (i_fresh _ _ _ I _ X)|exact (i_low _ _ _ I _ _ B)].
      - intros x p X. exact (i_low _ _ _ I _ _ (HB _ _ X)).
      - intros x p cx X. apply holds_other; [exact (i_begun _ _ _ I _ _ _ (HB _ _ X))|discriminate].
      - intros x d1 c1 d2 c2 X Y. apply in_snoc in X, Y. destruct X as [X|X]; [|discriminate]. destruct Y as [Y|Y]; [|discriminate]. exact (i_once _ _ _ I _ _ _ _ _ X Y).
      - intros x a cx X. pose proof (HB _ _ X) as Z. destruct (i_building _ _ _ I _ _ _ Z) as (U & V).
        split; intros Y; apply in_snoc in Y; (destruct Y as [Y|Y]; [contradiction|try discriminate]). injection Y as ->. congruence.
      - intros x cx X. apply debug_snoc. exact (i_true _ _ _ I _ _ (HB _ _ X)).
      - intros x cx X D. destruct (i_false _ _ _ I _ _ (HB _ _ X) (debug_back _ _ _ D ltac:(discriminate))) as (w & D' & F). exists w. split; [apply debug_snoc; exact D'|apply in_snoc; left; exact F].
      - intros x W. destruct (HS x W) as (W' & A' & Nb). destruct (i_server _ _ _ I x W') as ((cx & A) & D & F & G0).
        split; [exists cx; congruence|]. split; [apply debug_snoc; exact D|]. split; [apply in_snoc; left; exact F|].
        intros P X. apply in_snoc in X. destruct X as [X|X]; [exact (G0 P X)|]. injection X as ->. exact (Nb P eq_refl). }
    assert (HB : forall x p, upd (n_buf s) b None x = Some p -> n_buf s x = Some p).
    { intros x p X. unfold upd in X. destruct (Nat.eqb_spec x b); [discriminate|exact X]. }
    assert (U : upd (n_buf s) b None b = None) by (unfold upd; rewrite Nat.eqb_refl; reflexivity).
    assert (HN : forall x a, upd (n_buf s) b None x <> Some (Building a, c) \/ x <> b).
    { intros x a. destruct (Nat.eq_dec x b) as [->|N]; [left; rewrite U; discriminate|right; exact N]. }
    destruct (n_server s) as [w|] eqn:W.
    + destruct (Nat.eqb_spec b w) as [<-|N].
      * destruct py; injection E as <-.
        -- destruct s as [nx bu sv ra]. apply G; [auto|right; reflexivity| |].
           ++ intros x a. destruct (Nat.eq_dec x b) as [->|N]; [left|right; exact N]. cbn in *. rewrite B. discriminate.
           ++ cbn in *. intros x Q. subst sv. split; [exact Q|]. split; [reflexivity|discriminate].
        -- apply G; [exact HB|left; exact U|exact HN|discriminate].
      * injection E as <-. apply G; [exact HB|left; exact U|exact HN|]. intros x Q. injection Q as ->. split; [reflexivity|].
        split; [|congruence]. unfold upd. destruct (Nat.eqb_spec x b); [congruence|reflexivity].
    + injection E as <-. apply G; [exact HB|left; exact U|exact HN|discriminate].
Qed.
Lemma runs_inv py h s : runs py h s -> inv py h s.
Proof. induction 1; [apply inv0|eapply inv_step; eassumption]. Qed.
Lemma step_server py s e s' w : nstep py s e = Some s' -> n_server s = Some w -> n_server s' = Some w \/ (e = Destroy w /\ py = false).
Proof.
  intros E W. destruct e as [b d ct|b|b o|b]; cbn [nstep] in E.
  - destruct (Nat.ltb b (n_next s)); [discriminate|]. injection E as <-. left. exact W.
  - destruct (n_buf s b) as [[[[|]|] c]|]; try discriminate; [|injection E as <-; left; exact W].
    rewrite W in E. destruct py; injection E as <-; left; cbn; congruence.
  - destruct (n_buf s b) as [[[a|] c]|]; try discriminate. injection E as <-. left. exact W.
  - destruct (n_buf s b) as [[[a|] c]|]; try discriminate. rewrite W in E. destruct (Nat.eqb_spec b w) as [<-|N].
    + destruct py; [injection E as <-; left; exact W|right; auto].
    + injection E as <-. left. cbn; congruence.
Qed.
Lemma first_serves py h s b : runs py h s -> first_debug h b -> (py = true \/ ~ In (Destroy b) h) -> n_server s = Some b.
Proof.
  intros R. revert b. induction R as [|h s e s' R IH E]; intros b (h1 & h2 & Eq & D & F) P.
  - destruct h1; discriminate.
  - pose proof (runs_inv _ _ _ R) as I.
    assert (P' : py = true \/ ~ In (Destroy b) h). { destruct P as [P|P]; [left; exact P|right]. intros X. apply P, in_snoc. left. exact X. }
    assert (LN : h2 = [] \/ exists h3 x, h2 = h3 ++ [x]) by (clear; induction h2 using rev_ind; eauto).
    destruct LN as [->|(h3 & x & ->)].
    + change (h1 ++ [Finish b]) with (h1 ++ [Finish b]) in Eq. apply app_inj_tail in Eq. destruct Eq as [-> ->].
      assert (D0 : debug h1 b) by (apply (debug_back _ _ _ D); discriminate).
      cbn [nstep] in E. destruct (n_buf s b) as [[[a|] c]|] eqn:B; try discriminate.
      assert (F' : forall b', In (Finish b') h1 -> debug h1 b' -> False). { intros b' X Y. exact (F b' X (debug_snoc _ _ _ Y)). }
      assert (NS : n_server s = None). { destruct (n_server s) as [w|] eqn:W; [|reflexivity]. destruct (i_server _ _ _ I w W) as (_ & Dw & Fw & _). destruct (F' w Fw Dw). }
      destruct a; [rewrite NS in E; injection E as <-; reflexivity|].
      destruct (i_false _ _ _ I _ _ B D0) as (w & Dw & Fw). destruct (F' w Fw Dw).
    + assert (Eq' : h = h1 ++ Finish b :: h3 /\ e = x). { apply app_inj_tail. rewrite <- app_assoc. exact Eq. }
      destruct Eq' as [-> ->].
      assert (D0 : debug (h1 ++ Finish b :: h3) b).
      { destruct D as (ct & D). apply in_snoc in D. destruct D as [D| <-]; [exists ct; exact D|]. exfalso.
        cbn [nstep] in E. destruct (Nat.ltb_spec b (n_next s)) as [L|L]; [discriminate|].
        assert (X : id_of (Finish b) < n_next s) by (apply (i_fresh _ _ _ I); apply in_or_app; right; left; reflexivity). cbn in X. lia. }
      assert (FD : first_debug (h1 ++ Finish b :: h3) b).
      { exists h1, h3. split; [reflexivity|]. split; [exact D0|]. intros b' X Y. exact (F b' X (debug_snoc _ _ _ Y)). }
      destruct (step_server _ _ _ _ _ E (IH b FD P')) as [K|[K1 K2]]; [exact K|]. exfalso.
      destruct P as [P|P]; [congruence|]. apply P, in_snoc. right. congruence.
Qed.
Lemma server_call py h s b : runs py h s -> n_server s = Some b -> exists c, holds h b c /\ call s = Some (allFramesAsYAML c szero).
Proof.
  intros R W. pose proof (runs_inv _ _ _ R) as I. destruct (i_server _ _ _ I b W) as ((c & A) & _).
  exists c. split; [exact (i_begun _ _ _ I _ _ _ A)|]. unfold call. rewrite W, A. reflexivity.
Qed.
Lemma holds_same py h s b c c' : runs py h s -> holds h b c -> holds h b c' -> c = c'.
Proof.
  intros R (d & ct & B & ->) (d' & ct' & B' & ->). destruct (i_once _ _ _ (runs_inv _ _ _ R) _ _ _ _ _ B B') as [_ ->]. reflexivity.
Qed.
(** Nothing serves and no constructor that would advertise is under way *)
Definition quiet (s : node S) : Prop := n_server s = None /\ forall b c, n_buf s b <> Some (Building true, c).
Lemma quiet_step py s e s' : quiet s -> nstep py s e = Some s' -> (forall b ct, e <> Begin b true ct) -> quiet s'.
Proof.
  intros [N Q] E NB. destruct e as [b d ct|b|b o|b]; cbn [nstep] in E.
  - destruct (Nat.ltb b (n_next s)); [discriminate|]. injection E as <-. split; [exact N|]. cbn. intros x c. unfold upd.
    destruct (Nat.eqb_spec x b); [|apply Q]. destruct d; [exfalso; eapply NB; reflexivity|discriminate].
  - destruct (n_buf s b) as [[[[|]|] c]|] eqn:B; try discriminate; [exfalso; exact (Q _ _ B)|]. injection E as <-. split; [exact N|].
    cbn. intros x c0. unfold upd. destruct (Nat.eqb_spec x b); [discriminate|apply Q].
  - destruct (n_buf s b) as [[[a|] c]|]; try discriminate. injection E as <-. split; [exact N|].
    cbn. intros x c0. unfold upd. destruct (Nat.eqb_spec x b); [discriminate|apply Q].
  - destruct (n_buf s b) as [[[a|] c]|]; try discriminate. rewrite N in E. injection E as <-. split; [cbn; congruence|].
    cbn. intros x c0. unfold upd. destruct (Nat.eqb_spec x b); [discriminate|apply Q].
Qed.
End P.
