(** Bounds on block numbers and antennas of a column to which no column is added later. *)
From Verif Require Import Base BaseLemmas TimeBlockBuffer TbbSpec TbbProofs Column ColumnSpec ColumnProofs ColumnInv ColumnReach.
Local Open Scope N_scope.
Local Arguments busy : simpl never. Local Arguments upd : simpl never. Local Arguments insert : simpl never.
Local Arguments erase : simpl never. Local Arguments cached : simpl never. Local Arguments markWritten : simpl never.
Local Arguments maxCache : simpl never.

Section low.
Context {e : env} (A : nat) (HA : forall r, (fst (ants e r) < A)%nat /\ (snd (ants e r) < A)%nat).

Definition below (t : tbb (data e)) : Prop := forall r, In r t -> (antenna1 r < A)%nat /\ (antenna2 r < A)%nat.

Record low (s : state e) : Prop := {
  l_mgr : mgr s = false;
  l_lock : ~ In ILock (code s);
  l_set : forall n m, In (ISetRpb n m) (code s) -> n < 2 ^ 32 /\ (m <= A)%nat;
  l_ant : below (tb s);
  l_cur : rpb s = 0 -> tb s <> [] -> cur s = 0;
  l_chg : changed s = true -> cur s < 2 ^ 32 /\ tb s <> [];
  l_last : forall b x, last s b = Some x -> b < 2 ^ 32 /\ x <> [];
  l_row : forall row d, In (IPutRow row d) (code s) -> rpb s = 0 -> tb s <> [] }.

Lemma below_nil : below [].
Proof. intros r []. Qed.

Lemma below_decoded rp b rows : below (decoded e rp b rows).
Proof. intros r H. unfold decoded in H. apply in_map_iff in H as (p & <- & _). cbn. apply HA. Qed.

Lemma set_below n t r row d b : SetData n t r (fst (ants e row)) (snd (ants e row)) d = Ok b -> below t -> below b /\ b <> [].
Proof.
  unfold SetData. destruct (_ <? _)%nat; [discriminate|]. intros [= <-] H.
  assert (H' : below (if (length t <=? r)%nat then resize (r + 1) t else t)).
  { destruct (length t <=? r)%nat; trivial. unfold resize. intros x Hx. apply in_app_or in Hx as [Hx|Hx].
    - apply H. rewrite <- (firstn_skipn (r + 1) t). apply in_or_app. now left.
    - apply repeat_spec in Hx. subst x. cbn. specialize (HA 0). lia. }
  revert H'. generalize (if (length t <=? r)%nat then resize (r + 1) t else t). intros t' H'. split; [|destruct (firstn r t'); discriminate].
  intros x Hx. apply in_app_or in Hx as [Hx|[<-|Hx]].
  - apply H'. rewrite <- (firstn_skipn r t'). apply in_or_app. now left.
  - cbn. apply HA.
  - apply H'. rewrite <- (firstn_skipn (S r) t'). apply in_or_app. now right.
Qed.

Lemma max_below (t : tbb (data e)) : below t -> (MaxAntennaIndex t + 1 <= A)%nat.
Proof.
  intros H. destruct (max_fold t 0) as (_ & _ & M). unfold MaxAntennaIndex. destruct M as [M|(r & Hr & [M|M])].
  - specialize (HA 0). lia.
  - destruct (H r Hr). lia.
  - destruct (H r Hr). lia.
Qed.

Lemma low_ext (s s' : state e) : low s -> mgr s' = mgr s -> (forall x, In x (code s') -> In x (code s)) -> tb s' = tb s -> rpb s' = rpb s ->
  cur s' = cur s -> (changed s' = true -> changed s = true) -> last s' = last s -> low s'.
Proof.
  intros [L1 L2 L3 L4 L5 L6 L7 L8] E1 E2 E3 E4 E5 E6 E7. constructor; rewrite ?E1, ?E3, ?E4, ?E5, ?E7; auto.
  intros row d H. apply (L8 row d). now apply E2.
Qed.

Lemma low_put (s : state e) r row d s' : low s -> put_buffer s r row d = s' -> status s' = Running ->
  cur s < 2 ^ 32 -> (rpb s = 0 -> cur s = 0) -> low s'.
Proof.
  intros [L1 L2 L3 L4 L5 L6 L7 L8] E R Hc Hz. unfold put_buffer in E. destruct (SetData _ _ _ _ _ _) as [b| |] eqn:Eb; subst s'; try discriminate.
  destruct (set_below _ _ _ _ _ _ Eb L4) as (B1 & B2). constructor; cbn; auto.
Qed.

Ltac solve_low Kl L3' L8' := 
  try (match goal with |- ~ _ => intro end); intros; cbn in *;
  repeat match goal with
  | H : In _ (_ ++ _) |- _ => apply in_app_or in H
  | H : _ \/ _ |- _ => destruct H
  | H : In _ (if ?b then _ else _) |- _ => destruct b; cbn in H
  | H : In _ (_ :: _) |- _ => cbn in H
  | H : False |- _ => destruct H
  end; try discriminate; try congruence; try (now apply Kl); try (now apply L3'); try (eapply L8'; now eauto).

Lemma low_main f0 (s s' : state e) junk i c : low s -> inv f0 s -> code s = i :: c -> exec junk s i c = Some s' -> status s' = Running -> low s'.
Proof.
  intros L I Hc E R. pose proof L as [L1 L2 L3 L4 L5 L6 L7 L8]. pose proof (i_phase _ _ I) as P. rewrite Hc in *.
  assert (K : forall x, In x c -> In x (code s)) by (rewrite Hc; now right).
  assert (L0 : low (set_code s c)) by now apply (low_ext s).
  assert (Kl : ~ In ILock c) by (intros H; apply L2; now right).
  assert (L3' : forall n m, In (ISetRpb n m) c -> n < 2 ^ 32 /\ (m <= A)%nat) by (intros; apply L3; now right).
  assert (L8' : forall row d, In (IPutRow row d) c -> rpb s = 0 -> tb s <> []) by (intros row d H; apply (L8 row d); now right).
  destruct i; cbn [exec] in E.
  - (* IPut *)
    assert (Hr : row < 2 ^ 32) by (inversion P; subst; trivial; destruct (changed s); discriminate).
    clear L2 L3 L8. destruct (N.eqb_spec (rpb s) 0) as [Z|Z].
    + destruct (tb s) as [|t0 t] eqn:Et; cbn [Empty] in E.
      * injection E as E. eapply low_put; [|exact E|exact R|cbn; lia|reflexivity].
        constructor; cbn; trivial; solve_low Kl L3' L8'.
        destruct L6; trivial. congruence.
      * rewrite <- Et in *. destruct (keys_differ _ _ _).
        -- injection E as <-. constructor; cbn; trivial; solve_low Kl L3' L8'. 
           match goal with H : ISetRpb _ _ = ISetRpb _ _ |- _ => injection H as <- <- end. split; trivial. now apply max_below.
        -- injection E as E. eapply low_put; [exact L0|exact E|exact R| |]; cbn; rewrite L5; trivial; try lia; rewrite Et; discriminate.
    + injection E as <-. constructor; cbn; trivial; solve_low Kl L3' L8'.
  - (* IPutRow *)
    assert (Hr : row < 2 ^ 32) by (inversion P; subst; trivial; destruct (changed s); discriminate).
    destruct (N.eqb_spec (rpb s) 0) as [Z|Z].
    + injection E as E. assert (Ht : tb s <> []) by (eapply (L8 row d); [now left|trivial]).
      eapply low_put; [exact L0|exact E|exact R| |]; cbn; rewrite L5; trivial; lia.
    + clear L2 L3 L8. destruct (_ =? _); injection E as <-; constructor; cbn; trivial; solve_low Kl L3' L8'.
  - (* ISet *)
    assert (Hr : row < 2 ^ 32 /\ rpb s <> 0 /\ cur s = row / rpb s) by (inversion P; subst; auto; destruct (changed s); discriminate).
    destruct Hr as (Hr & Z & Hcur). injection E as E. eapply low_put; [exact L0|exact E|exact R| |]; cbn; [|congruence].
    rewrite Hcur. apply N.le_lt_trans with row; trivial. apply N.div_le_upper_bound; trivial. nia.
  - (* ILoad *)
    assert (Z : rpb s <> 0) by (inversion P; subst; auto; destruct (changed s); discriminate).
    injection E as E. unfold load in E. cbn in E. clear L2 L3 L8.
    destruct (cached (cache s) b); cbn in E; (destruct (b <? nblk s); [destruct (file s b); [|destruct junk]|]; subst s'; try discriminate;
      (constructor; cbn; trivial; try (apply below_decoded); solve_low Kl L3' L8')).
  - (* IStore *)
    destruct (_ || _).
    + injection E as <-. apply (low_ext s); trivial. 
    + injection E as <-.
      assert (Ch : changed s = true) by (inversion P; subst; auto; destruct (changed s) eqn:Q; trivial; discriminate).
      destruct (L6 Ch) as (C1 & C2). unfold notify. constructor; cbn; trivial; try easy.
      * intros b x. unfold upd_map. destruct (N.eqb_spec b (cur s)) as [->|]; [intros [= <-]; now split|apply L7].
      * intros row d H Z. exfalso. inversion P; subst; try congruence; try (destruct (changed s); try discriminate);
          try (match goal with X : _ = IStore :: c |- _ => cbn in X; injection X as <- end); cbn in H; intuition discriminate.
  - clear L2 L3 L8. destruct (rpb s =? 0); [|destruct (_ <=? _)]; injection E as <-; try (apply (low_ext s); trivial; fail).
    constructor; cbn; trivial; solve_low Kl L3' L8'.
  - destruct (cached _ _); injection E as <-; apply (low_ext s); trivial. 
  - assert (Z : rpb s <> 0) by (inversion P; subst; auto; destruct (changed s); discriminate). clear L2 L3 L8.
    destruct (_ =? _); injection E as <-; constructor; cbn; trivial; solve_low Kl L3' L8'.
  - destruct (GetData _ _); injection E as <-; try discriminate. now apply (low_ext s).
  - (* ISetRpb *)
    assert (Z : rpb s = 0) by (inversion P; subst; auto; destruct (changed s); discriminate).
    injection E as E. clear L2 L3 L8.
    assert (X : low (set_rpb (set_code s c) n m)).
    { constructor; cbn; trivial; solve_low Kl L3' L8'. now apply L5. }
    destruct (_ && _); subst s'; [exact X|]. now apply (low_ext _ _ X).
  - destruct (workers s); destruct (cache s); injection E as <-; try discriminate; try (apply (low_ext s); trivial; cbn; now rewrite Hc).
    clear L2 L3 L8. constructor; cbn; trivial; solve_low Kl L3' L8'.
  - destruct (forallb _ _); [|discriminate]. injection E as <-. now apply (low_ext s).
  - injection E as <-. now apply (low_ext s).
  - exfalso. apply L2. now left.
  - exfalso. inversion P; subst; try congruence; destruct (changed s); discriminate.
  - exfalso. inversion P; subst; try congruence; destruct (changed s); discriminate.
  - exfalso. inversion P; subst; try congruence; destruct (changed s); discriminate.
  - injection E as <-. clear L2 L3 L8. constructor; cbn; trivial; solve_low Kl L3' L8'.
Qed.

Lemma low_worker (s s1 : state e) y w w1 k : low s -> wexec y s w = Some (s1, w1) -> low (set_worker s1 k w1).
Proof.
  intros L E. destruct w as [| | |b x|b|]; cbn [wexec] in E; unfold pick in E;
      repeat match type of E with
      | (if ?b then _ else _) = Some _ => destruct b
      | match match ?b with _ => _ end with _ => _ end = Some _ => destruct b
      | match ?b with _ => _ end = Some _ => destruct b
      end; try discriminate; injection E as <- <-; now apply (low_ext s).
Qed.
End low.
