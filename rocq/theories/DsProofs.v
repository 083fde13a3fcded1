(** Proofs about dscompress: validation of the row order. *)
From Verif Require Import Base Floats FloatLemmas Dscompress DsSpec.
From Coq Require Import List.

Lemma new_block_false a b : new_block a b = false <-> same_key a b.
Proof.
  unfold new_block, same_key. destruct (Beqb (time b) (time a)); cbn.
  - destruct (Z.eqb_spec (field b) (field a)); cbn; [|split; [discriminate|intros [_ [? _]]; contradiction]].
    destruct (Z.eqb_spec (ddid b) (ddid a)); cbn; [|split; [discriminate|intros [_ [_ ?]]; contradiction]].
    tauto.
  - split; [discriminate|intros [? _]; discriminate].
Qed.

Lemma new_block_true a b : new_block a b = true <-> ~ same_key a b.
Proof. rewrite <- new_block_false. destruct (new_block a b); intuition congruence. Qed.

Lemma neighbours_nil {A} (R : A -> A -> Prop) : neighbours R [].
Proof. intros p a b q H. destruct p; discriminate. Qed.
Lemma neighbours_one {A} (R : A -> A -> Prop) x : neighbours R [x].
Proof. intros p a b q H. destruct p as [|? [|]]; discriminate. Qed.
Lemma neighbours_cons {A} (R : A -> A -> Prop) x y l : R x y -> neighbours R (y :: l) -> neighbours R (x :: y :: l).
Proof. intros H1 H2 p a b q E. destruct p as [|c p]; cbn in E; injection E; [now intros <- <- <-|]. intros E' _. eapply H2; eauto. Qed.
Lemma neighbours_uncons {A} (R : A -> A -> Prop) x y l : neighbours R (x :: y :: l) -> R x y /\ neighbours R (y :: l).
Proof. intros H. split; [apply (H [] x y l eq_refl)|]. intros p a b q E. apply (H (x :: p) a b q). now rewrite E. Qed.
Lemma neighbours_snoc {A} (R : A -> A -> Prop) l x y : neighbours R (l ++ [x]) -> R x y -> neighbours R ((l ++ [x]) ++ [y]).
Proof.
  intros H1 H2. induction l as [|z l IH]; cbn in *.
  - apply neighbours_cons; trivial. apply neighbours_one.
  - destruct l as [|w l]; cbn in *; apply neighbours_uncons in H1; destruct H1; apply neighbours_cons; auto.
Qed.

(** state after a prefix of a regular table *)
Definition ongoing (s : vstate) (rows : list ms_row) : Prop :=
  exists before cur x,
    rows = List.concat before ++ cur ++ [x] /\
    lastRow s = x /\ blockOffset s = S (length cur) /\ blockNumber s = length before /\
    Forall (fun b => b <> [] /\ neighbours same_key b) before /\ neighbours same_key (cur ++ [x]) /\
    neighbours different (before ++ [cur ++ [x]]) /\
    Forall (fun b => map baseline b = antennasInBlock s) before /\
    (exists rest, antennasInBlock s = map baseline (cur ++ [x]) ++ rest) /\
    (before = [] -> antennasInBlock s = map baseline (cur ++ [x])).

Lemma snoc_inj {A} (l l' : list A) x x' : l ++ [x] = l' ++ [x'] -> l = l' /\ x = x'.
Proof. apply app_inj_tail. Qed.

Lemma check_row_ongoing s rows r s' : ongoing s rows -> check_row s r = Ok s' -> ongoing s' (rows ++ [r]).
Proof.
  intros (before & cur & x & E & Ex & Eo & En & Fb & Nc & Nd & Fm & [rest Pr] & Fi) H. unfold check_row in H. rewrite Ex in H.
  destruct (new_block x r) eqn:NB.
  - destruct (Nat.eqb_spec (blockOffset s) (length (antennasInBlock s))) as [L|L]; [|discriminate]. cbn in H.
    destruct (rd (antennasInBlock s) 0) as [a| |] eqn:Ra; try discriminate. cbn in H.
    destruct (negb (fst a =? ant1 r)%Z || negb (snd a =? ant2 r)%Z) eqn:Q; [discriminate|]. cbn in H. injection H as <-.
    assert (rest = []) as ->.
    { rewrite Pr in L. rewrite app_length, map_length, app_length in L. cbn in L. destruct rest; trivial. cbn in L. lia. }
    rewrite app_nil_r in Pr.
    exists (before ++ [cur ++ [x]]), [], r. cbn. split.
    { rewrite E, concat_app. cbn. now rewrite !app_nil_r, <- !app_assoc. }
    split; [trivial|]. split; [trivial|]. split; [rewrite app_length; cbn; lia|]. split.
    { apply Forall_app. split; trivial. constructor; [|constructor]. split; trivial. now destruct cur. }
    split; [apply neighbours_one|]. split.
    { rewrite <- app_assoc. cbn. change [cur ++ [x]; [r]] with ([cur ++ [x]] ++ [[r]]). rewrite app_assoc. apply neighbours_snoc; trivial.
      intros p x0 y q E1 E2. apply snoc_inj in E1 as [_ <-]. injection E2 as <- _. now apply new_block_true. }
    split. { apply Forall_app. split; trivial. constructor; [congruence|constructor]. }
    split.
    { unfold rd in Ra. destruct (antennasInBlock s) as [|a0 l]; [discriminate|]. injection Ra as ->. exists l.
      apply orb_false_iff in Q as [Q1 Q2]. apply negb_false_iff in Q1, Q2. apply Z.eqb_eq in Q1, Q2. unfold baseline. rewrite <- Q1, <- Q2.
      now destruct a. }
    intros Z. now destruct before.
  - cbn in H. destruct (Nat.eqb_spec (blockNumber s) 0) as [N0|N0].
    + cbn in H. injection H as <-. cbn. assert (before = []) as -> by (destruct before; trivial; cbn in En; lia).
      exists [], (cur ++ [x]), r. cbn in *. split; [now rewrite E|]. split; [trivial|]. split; [rewrite Eo, app_length; cbn; lia|].
      split; [trivial|]. split; [constructor|]. split.
      { apply neighbours_snoc; trivial. now apply new_block_false. }
      split; [apply neighbours_one|]. split; [constructor|]. split; [exists []|]; rewrite (Fi eq_refl), ?app_nil_r, (map_app _ (cur ++ [x])); trivial.
    + destruct (rd (antennasInBlock s) (blockOffset s)) as [a| |] eqn:Ra; try discriminate. cbn in H.
      destruct (negb (fst a =? ant1 r)%Z || negb (snd a =? ant2 r)%Z) eqn:Q; [discriminate|]. cbn in H. injection H as <-.
      exists before, (cur ++ [x]), r. cbn. split; [rewrite E; now rewrite <- !app_assoc|]. split; [trivial|].
      split; [rewrite Eo, app_length; cbn; lia|]. split; [trivial|]. split; [trivial|]. split.
      { apply neighbours_snoc; trivial. now apply new_block_false. }
      split.
      { destruct before as [|b0 before'] eqn:Eb; [apply neighbours_one|]. rewrite <- Eb in *.
        assert (exists bs b, before = bs ++ [b]) as (bs & b & ->).
        { destruct (exists_last (l := before)) as (bs & b & ->); [now rewrite Eb|]. now exists bs, b. }
        apply neighbours_snoc.
        - intros p a1 b1 q E1. apply (Nd p a1 b1 (q ++ [cur ++ [x]])). rewrite E1, <- app_assoc. reflexivity.
        - intros p x0 y q E1 E2.
          assert (D : different b (cur ++ [x])). { apply (Nd bs b (cur ++ [x]) []). now rewrite <- app_assoc. }
          assert (exists q', cur ++ [x] = y :: q') as [q' E3].
          { destruct cur; cbn in *; injection E2 as -> _; eauto. }
          eapply D; eauto. }
      split; [trivial|]. split; [|intros ->; now cbn in En].
      unfold rd in Ra. destruct (nth_error (antennasInBlock s) (blockOffset s)) as [a'|] eqn:Rn; [|discriminate]. injection Ra as ->.
      rewrite Pr in Rn. rewrite nth_error_app2 in Rn by (rewrite map_length, app_length, Eo; cbn; lia).
      rewrite map_length, app_length, Eo in Rn. rewrite (proj2 (Nat.sub_0_le _ _)) in Rn by (cbn; lia).
      destruct rest as [|a0 rest']; [discriminate|]. cbn in Rn. injection Rn as ->. exists rest'. rewrite Pr.
      apply orb_false_iff in Q as [Q1 Q2]. apply negb_false_iff in Q1, Q2. apply Z.eqb_eq in Q1, Q2.
      rewrite (map_app _ (cur ++ [x])), <- app_assoc. cbn. unfold baseline at 3. rewrite <- Q1, <- Q2. now destruct a.
Qed.

(** the row at which the check stops *)
Lemma check_row_ub s rows r : ongoing s rows -> check_row s r = UB ->
  (exists b1 b2 bs, regular_blocks rows (b1 :: b2 :: bs)) /\ exists x, same_key x r /\ exists p, rows = p ++ [x].
Proof.
  intros (before & cur & x & E & Ex & Eo & En & Fb & Nc & Nd & Fm & [rest Pr] & Fi) H. unfold check_row in H. rewrite Ex in H.
  destruct (new_block x r) eqn:NB.
  - destruct (Nat.eqb_spec (blockOffset s) (length (antennasInBlock s))) as [L|L]; [|discriminate]. cbn in H.
    destruct (antennasInBlock s) as [|a l]; [cbn in L; lia|]. cbn in H.
    destruct (negb (fst a =? ant1 r)%Z || negb (snd a =? ant2 r)%Z); discriminate.
  - cbn in H. destruct (Nat.eqb_spec (blockNumber s) 0) as [N0|N0]; [discriminate|].
    unfold rd in H. destruct (nth_error (antennasInBlock s) (blockOffset s)) as [a|] eqn:Rn.
    { cbn in H. destruct (negb (fst a =? ant1 r)%Z || negb (snd a =? ant2 r)%Z); discriminate. }
    apply nth_error_None in Rn. rewrite Pr, app_length, map_length, app_length, Eo in Rn. cbn in Rn.
    assert (rest = []) as -> by (destruct rest; trivial; cbn in Rn; lia). rewrite app_nil_r in Pr.
    split.
    + destruct before as [|b1 before']; [cbn in En; lia|].
      assert (G : regular_blocks rows (b1 :: before' ++ [cur ++ [x]])).
      { split. { rewrite E. cbn. rewrite concat_app. cbn. now rewrite app_nil_r, <- !app_assoc. }
        split; [discriminate|]. split.
        { change (b1 :: before' ++ [cur ++ [x]]) with ((b1 :: before') ++ [cur ++ [x]]). apply Forall_app. split; trivial.
          constructor; [|constructor]. split; trivial. now destruct cur. }
        split; [trivial|]. exists (antennasInBlock s).
        change (b1 :: before' ++ [cur ++ [x]]) with ((b1 :: before') ++ [cur ++ [x]]). apply Forall_app. split; trivial.
        constructor; [congruence|constructor]. }
      destruct before' as [|b2 before']; [exists b1, (cur ++ [x]), []|exists b1, b2, (before' ++ [cur ++ [x]])]; exact G.
    + exists x. split; [now apply new_block_false|]. exists (List.concat before ++ cur). now rewrite E, app_assoc.
Qed.

Lemma foldM_app {A S} (f : S -> A -> res S) l1 l2 : forall s, foldM f (l1 ++ l2) s = (do s' <- foldM f l1 s; foldM f l2 s').
Proof. induction l1 as [|a l1 IH]; intros s; cbn; trivial. destruct (f s a); cbn; auto. Qed.

Lemma fold_ongoing l : forall s rows s', ongoing s rows -> foldM check_row l s = Ok s' -> ongoing s' (rows ++ l).
Proof.
  induction l as [|r l IH]; intros s rows s' O H; cbn in H; [injection H as <-; now rewrite app_nil_r|].
  destruct (check_row s r) as [s1| |] eqn:C; try discriminate. cbn in H.
  replace (rows ++ r :: l) with ((rows ++ [r]) ++ l) by (now rewrite <- app_assoc). eapply IH; eauto. eapply check_row_ongoing; eauto.
Qed.

Lemma fold_stop l : forall s rows, ongoing s rows -> foldM check_row l s = UB ->
  exists p r q, l = p ++ r :: q /\ (exists b1 b2 bs, regular_blocks (rows ++ p) (b1 :: b2 :: bs)) /\
    exists x, same_key x r /\ exists p', rows ++ p = p' ++ [x].
Proof.
  induction l as [|r l IH]; intros s rows O H; cbn in H; [discriminate|].
  destruct (check_row s r) as [s1| |] eqn:C; try discriminate; cbn in H.
  - destruct (IH s1 (rows ++ [r])) as (p & r' & q & -> & G); trivial. { eapply check_row_ongoing; eauto. }
    rewrite <- app_assoc in G. exists (r :: p), r', q. split; trivial.
  - exists [], r, l. split; trivial. rewrite app_nil_r. eapply check_row_ub; eauto.
Qed.

Definition start (r0 : ms_row) : vstate := VState r0 [] 0 0.

Lemma same_key_refl r : is_nan (time r) = false -> same_key r r.
Proof. intros H. split; [|tauto]. now apply Beqb_K. Qed.

Lemma first_row r0 : is_nan (time r0) = false -> check_row (start r0) r0 = Ok (VState r0 [baseline r0] 1 0).
Proof. intros H. unfold check_row, start. cbn. apply same_key_refl, new_block_false in H. now rewrite H. Qed.

Lemma ongoing_first r0 : ongoing (VState r0 [baseline r0] 1 0) [r0].
Proof.
  exists [], [], r0. cbn. do 4 (split; [trivial|]). split; [constructor|]. split; [apply neighbours_one|]. split; [apply neighbours_one|].
  split; [constructor|]. split; [|trivial]. now exists [].
Qed.

(** running through regular tables *)
Lemma run_first b : forall x s, lastRow s = x -> blockNumber s = 0%nat -> blockOffset s = length (antennasInBlock s) -> neighbours same_key (x :: b) ->
  exists s', foldM check_row b s = Ok s' /\ blockNumber s' = 0%nat /\ antennasInBlock s' = antennasInBlock s ++ map baseline b /\
    blockOffset s' = length (antennasInBlock s') /\ lastRow s' = last b x.
Proof.
  induction b as [|r b IH]; intros x s Ex En Eo N.
  - exists s. cbn. rewrite app_nil_r. auto.
  - apply neighbours_uncons in N as [K N]. cbn [foldM]. unfold check_row at 1. rewrite Ex. apply new_block_false in K. rewrite K. cbn. rewrite En. cbn.
    destruct (IH r (VState r (antennasInBlock s ++ [baseline r]) (S (blockOffset s)) (blockNumber s))) as (s' & F & A1 & A2 & A3 & A4); trivial.
    { cbn. rewrite app_length. cbn. lia. }
    rewrite En in F. exists s'. split; [exact F|]. split; [trivial|]. split; [rewrite A2; cbn; now rewrite <- app_assoc|]. split; [trivial|].
    rewrite A4. destruct b as [|y b]; trivial. cbn. clear. revert y; induction b as [|z b IH']; intros y; trivial. cbn. apply IH'.
Qed.

Lemma run_rest b : forall x s, lastRow s = x -> (blockNumber s <> 0)%nat -> neighbours same_key (x :: b) ->
  (exists pre, length pre = blockOffset s /\ antennasInBlock s = pre ++ map baseline b) ->
  exists s', foldM check_row b s = Ok s' /\ blockNumber s' = blockNumber s /\ antennasInBlock s' = antennasInBlock s /\
    blockOffset s' = length (antennasInBlock s') /\ lastRow s' = last b x.
Proof.
  induction b as [|r b IH]; intros x s Ex En N (pre & L & A).
  - exists s. cbn in *. rewrite app_nil_r in A. subst pre. auto.
  - apply neighbours_uncons in N as [K N]. cbn [foldM]. unfold check_row at 1. rewrite Ex. apply new_block_false in K. rewrite K. cbn.
    destruct (Nat.eqb_spec (blockNumber s) 0) as [Z|_]; [lia|]. cbn.
    assert (R : rd (antennasInBlock s) (blockOffset s) = Ok (baseline r)).
    { unfold rd. rewrite A, <- L, nth_error_app2, Nat.sub_diag by lia. reflexivity. }
    rewrite R. cbn. rewrite !Z.eqb_refl. cbn.
    destruct (IH r (VState r (antennasInBlock s) (S (blockOffset s)) (blockNumber s))) as (s' & F & A1 & A2 & A3 & A4); trivial.
    { exists (pre ++ [baseline r]). cbn. rewrite app_length, A, <- app_assoc. cbn. split; [lia|trivial]. }
    exists s'. split; [exact F|]. split; [trivial|]. split; [trivial|]. split; [trivial|].
    rewrite A4. destruct b as [|y b]; trivial. cbn. clear. revert y; induction b as [|z b IH']; intros y; trivial. cbn. apply IH'.
Qed.

Lemma run_block b s bl : b <> [] -> neighbours same_key b -> map baseline b = bl -> antennasInBlock s = bl -> blockOffset s = length bl ->
  (forall y q, b = y :: q -> ~ same_key (lastRow s) y) ->
  exists s', foldM check_row b s = Ok s' /\ blockNumber s' = S (blockNumber s) /\ antennasInBlock s' = bl /\
    blockOffset s' = length bl /\ lastRow s' = last b (lastRow s).
Proof.
  intros Nb N E Ea Eo D. destruct b as [|r b]; [contradiction|]. cbn [foldM]. unfold check_row at 1.
  specialize (D r b eq_refl). apply new_block_true in D. rewrite D, Eo, Ea, Nat.eqb_refl. cbn.
  rewrite <- E. cbn. rewrite !Z.eqb_refl. cbn.
  destruct (run_rest b r (VState r (antennasInBlock s) 1 (S (blockNumber s)))) as (s' & F & A1 & A2 & A3 & A4); trivial; cbn.
  { discriminate. } { exists [baseline r]. rewrite Ea, <- E. split; trivial. }
  cbn in *. rewrite Ea, <- E in F. cbn in F. exists s'. split; [exact F|]. rewrite Ea in *. rewrite <- E in *. split; [trivial|]. split; [trivial|].
  split; [now rewrite A3, A2|]. rewrite A4.
  destruct b as [|y b]; trivial. cbn. clear. revert y; induction b as [|z b IH']; intros y; trivial. cbn. apply IH'.
Qed.

Lemma last_snoc {A} (l : list A) x d : last (l ++ [x]) d = x.
Proof. induction l as [|a l IH]; trivial. cbn. destruct (l ++ [x]) eqn:E; [now destruct l|exact IH]. Qed.

Lemma run_blocks bs : forall b0 s bl, b0 <> [] -> lastRow s = last b0 (lastRow s) -> antennasInBlock s = bl -> blockOffset s = length bl ->
  Forall (fun b => b <> [] /\ neighbours same_key b) bs -> neighbours different (b0 :: bs) -> Forall (fun b => map baseline b = bl) bs ->
  exists s', foldM check_row (List.concat bs) s = Ok s' /\ blockNumber s' = (blockNumber s + length bs)%nat /\ antennasInBlock s' = bl /\
    blockOffset s' = length bl /\ lastRow s' = last (List.concat bs) (lastRow s).
Proof.
  induction bs as [|b bs IH]; intros b0 s bl N0 El Ea Eo F1 D F2.
  - exists s. cbn. repeat split; trivial; lia.
  - cbn [List.concat]. rewrite foldM_app. apply neighbours_uncons in D as [D1 D2]. inversion F1 as [|? ? [Nb Kb] F1']; subst. inversion F2 as [|? ? E2 F2']; subst.
    destruct (run_block b s (antennasInBlock s)) as (s1 & R1 & A1 & A2 & A3 & A4); trivial.
    { intros y q ->. destruct (exists_last N0) as (p & x & ->). rewrite last_snoc in El. rewrite El. eapply D1; eauto. }
    rewrite R1. cbn. destruct (IH b s1 (antennasInBlock s)) as (s2 & R2 & B1 & B2 & B3 & B4); trivial.
    { rewrite A4. destruct (exists_last Nb) as (p & x & ->). now rewrite !last_snoc. }
    { rewrite R2. exists s2. split; [trivial|]. split; [cbn; lia|]. split; [trivial|]. split; [trivial|].
      rewrite B4, A4. clear. induction b as [|y b IH]; trivial. cbn. destruct b as [|z b]; [cbn; destruct (List.concat bs) eqn:Q; trivial;
        clear; revert m; induction l as [|w l IH]; intros m; trivial; apply IH|]. exact IH. }
Qed.

Lemma run_regular r0 rows blocks : is_nan (time r0) = false -> regular_blocks (r0 :: rows) blocks ->
  exists s, foldM check_row (r0 :: rows) (start r0) = Ok s /\ S (blockNumber s) = length blocks /\
    blockOffset s = length (antennasInBlock s) /\ lastRow s = last rows r0.
Proof.
  intros NN (E & Nn & F & D & bl & M). destruct blocks as [|b bs]; [contradiction|].
  inversion F as [|? ? [Nb Kb] F']; subst. inversion M as [|? ? Eb M']; subst.
  destruct b as [|x b]; [contradiction|]. cbn in E. injection E as <- E.
  cbn [foldM]. rewrite first_row; trivial. cbn [bind].
  destruct (run_first b r0 (VState r0 [baseline r0] 1 0)) as (s1 & R1 & A1 & A2 & A3 & A4); trivial.
  rewrite E, foldM_app, R1. cbn.
  destruct (run_blocks bs (r0 :: b) s1 (map baseline (r0 :: b))) as (s2 & R2 & B1 & B2 & B3 & B4); trivial.
  { rewrite A4. destruct b as [|y b]; [trivial|]. cbn. clear. revert y; induction b as [|z b IH']; intros y; trivial. cbn. apply IH'. }
  { now rewrite A3, A2. }
  exists s2. rewrite R2. split; [trivial|]. split; [lia|]. split; [now rewrite B3, B2|].
  rewrite B4, A4. clear. induction b as [|y b IH]; trivial. cbn. destruct b as [|z b]; [cbn; destruct (List.concat bs) eqn:Q; trivial;
        clear; revert m; induction l as [|w l IH]; intros m; trivial; apply IH|]. exact IH.
Qed.

Lemma validate_regular r0 rows : is_nan (time r0) = false -> (validate (r0 :: rows) = Ok tt <-> regular (r0 :: rows)).
Proof.
  intros NN. split.
  - intros H. unfold validate in H. fold (start r0) in H. cbn [foldM] in H. rewrite first_row in H by trivial. cbn [bind] in H.
    destruct (foldM check_row rows _) as [s| |] eqn:E; try discriminate. cbn in H.
    destruct (Nat.eqb_spec (blockOffset s) (length (antennasInBlock s))) as [L|]; [|discriminate].
    apply (fold_ongoing _ _ [r0]) in E; [|apply ongoing_first].
    destruct E as (before & cur & x & E & Ex & Eo & En & Fb & Nc & Nd & Fm & [rest Pr] & Fi).
    assert (rest = []) as ->. { rewrite Pr, app_length, map_length, app_length, Eo in L. cbn in L. destruct rest; trivial. cbn in L. lia. }
    rewrite app_nil_r in Pr. exists (before ++ [cur ++ [x]]). split.
    { cbn in E. rewrite E, concat_app. cbn. now rewrite app_nil_r. }
    split; [now destruct before|]. split. { apply Forall_app. split; trivial. constructor; [|constructor]. split; trivial. now destruct cur. }
    split; [trivial|]. exists (antennasInBlock s). apply Forall_app. split; trivial. constructor; [congruence|constructor].
  - intros [blocks R]. destruct (run_regular _ _ _ NN R) as (s & F & _ & L & _). unfold validate. fold (start r0). rewrite F. cbn. now rewrite L, Nat.eqb_refl.
Qed.

Lemma validate_ub r0 rows : is_nan (time r0) = false -> (validate (r0 :: rows) = UB <->
  exists p x r q, r0 :: rows = (p ++ [x]) ++ r :: q /\ (exists b1 b2 bs, regular_blocks (p ++ [x]) (b1 :: b2 :: bs)) /\ same_key x r).
Proof.
  intros NN. split.
  - intros H. unfold validate in H. fold (start r0) in H. cbn [foldM] in H. rewrite first_row in H by trivial. cbn [bind] in H.
    destruct (foldM check_row rows _) as [s| |] eqn:E; try discriminate; cbn in H.
    { destruct (blockOffset s =? length (antennasInBlock s))%nat; discriminate. }
    apply (fold_stop _ _ [r0]) in E; [|apply ongoing_first]. destruct E as (p & r & q & -> & (b1 & b2 & bs & R) & x & K & p' & Ep).
    exists p', x, r, q. split; [rewrite <- Ep; reflexivity|]. split; [|trivial]. rewrite <- Ep. eauto.
  - intros (p & x & r & q & E & (b1 & b2 & bs & R) & K).
    assert (exists t, p ++ [x] = r0 :: t) as [t Et]. { destruct p; cbn in *; injection E as <- E; eauto. }
    rewrite Et in R, E. destruct (run_regular _ _ _ NN R) as (s & F & Ln & Lo & El).
    unfold validate. rewrite E. fold (start r0). change ((r0 :: t) ++ r :: q) with (r0 :: t ++ r :: q). cbv match.
    change (r0 :: t ++ r :: q) with ((r0 :: t) ++ r :: q). rewrite foldM_app, F. cbn [bind].
    cbn [foldM]. unfold check_row at 1.
    assert (last t r0 = x) as Ex. { change (last (r0 :: t) r0 = x) in El || idtac. assert (last (r0 :: t) r0 = x) by (rewrite <- Et; apply last_snoc). destruct t; trivial. }
    rewrite El, Ex. apply new_block_false in K. rewrite K. cbn. cbn in Ln. destruct (Nat.eqb_spec (blockNumber s) 0); [lia|]. cbn.
    unfold rd. assert (nth_error (antennasInBlock s) (blockOffset s) = None) as -> by (apply nth_error_None; lia). reflexivity.
Qed.

Lemma validate_nan r0 rows : is_nan (time r0) = true -> validate (r0 :: rows) = UB.
Proof.
  intros H. unfold validate. cbn [foldM]. unfold check_row at 1. cbn. assert (new_block r0 r0 = true) as ->; [|reflexivity].
  unfold new_block. destruct (time r0); try discriminate. reflexivity.
Qed.
