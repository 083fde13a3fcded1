(** A column written in row order next to other columns of the same table. *)
From Verif Require Import Base BaseLemmas TimeBlockBuffer TbbSpec TbbProofs Column ColumnSpec ColumnProofs ColumnInv ColumnReach ColumnTerm ColumnData ColumnOrder ColumnWhole.
Local Open Scope N_scope.
Local Arguments busy : simpl never. Local Arguments upd : simpl never. Local Arguments insert : simpl never.
Local Arguments erase : simpl never. Local Arguments cached : simpl never. Local Arguments markWritten : simpl never.
Local Arguments maxCache : simpl never.

Section among.
Context {e : env} (o : Prop) (D : N -> list (data e)) (HD : forall r, (nSamp e <= length (D r))%nat) (K : N).

(** no row beyond row [K] of the table *)
Definition among (k : N) (s : state e) : Prop := rpb s <> 0 ->
  (tb s = [] \/ cur s * rpb s + N.of_nat (length (tb s)) <= K) /\
  forall b x, last s b = Some x -> b * rpb s + N.of_nat (length x) <= k /\ (closed s = false -> (b + 1) * rpb s < k).

Lemma among_ext k (s s' : state e) : among k s -> rpb s' = rpb s -> cur s' = cur s -> tb s' = tb s -> last s' = last s -> (closed s' = false -> closed s = false) -> among k s'.
Proof. intros H E1 E2 E3 E4 E5. unfold among. rewrite E1, E2, E3, E4. intros Z. destruct (H Z) as (H1 & H2). split; trivial. intros b x Hx. destruct (H2 b x Hx). auto. Qed.

Lemma among_more k k' (s : state e) : among k s -> k <= k' -> among k' s.
Proof. intros H L Z. destruct (H Z) as (H3 & H4). split; [trivial|]. intros b x Hx. destruct (H4 b x Hx) as (H5 & H6). split; [lia|]. intros C. specialize (H6 C). lia. Qed.

Lemma codes_store k n m (s : state e) c : codesB D k n m s -> code s = IStore :: c -> (k = m + 1 /\ m mod n = 0 /\ closed s = false) \/ (closed s = true /\ k = m).
Proof.
  intros H Hc.
  destruct H as [(Cl & Ch & Cu & Hm & [(B & _)|[(_ & [B|[B|[B|[B|B]]]])|[(-> & Mz & B)|[(Q1 & Q2 & B)|[(_ & B)|(_ & [B|[B|B]])]]]]])|[(_ & Ch & -> & Mz & [(B & T0)|(B & Cu)])|[(Cl & Hk & [(Ch & Cu & Hm & B)|(_ & [B|[B|B]])])|(_ & _ & _ & _ & _ & [(_ & [B|[B|[B|[B|B]]]])|(_ & [B|B])])]]];
    rewrite Hc in B; try discriminate; tauto.
Qed.

Lemma among_main k (s s' : state e) junk i c : ord o D k s -> inv (fun _ => None) s -> k <= K -> (closed s = true -> k = K) ->
  (forall b c', code s = ILoad b :: c' -> nblk s * rpb s <= K) -> among k s -> code s = i :: c -> exec junk s i c = Some s' -> junk_ok s junk ->
  status s' = Running -> among k s'.
Proof.
  intros [A|[B|O]] I Lk Ck Nb W Hc E J R.
  - destruct A as (m & R0 & W0 & F0 & K0 & H).
    assert (Z0 : rpb s' = 0 -> among k s') by (intros Z Z'; congruence).
    destruct H as [((C0 & Cu & Ch & Fi & Ky) & [H|[H|[H|[H|[H|[H|H]]]]]])|H]; destruct H as (H & Cl & Hk); rewrite Hc in H; try discriminate; injection H as -> ->; cbn [exec] in E.
    + apply Z0. rewrite R0 in E. cbn [N.eqb] in E. assert (P : forall (t : state e) r row d, rpb (put_buffer t r row d) = rpb t) by (intros; unfold put_buffer; destruct (SetData _ _ _ _ _ _); reflexivity).
      destruct (Empty (tb s)); [|destruct (keys_differ _ _ _)]; injection E as <-; rewrite ?P; exact R0.
    + destruct Hk as (-> & Hm & Hs). injection E as E. destruct Fi as (L & Fi). rewrite L, N2Nat.id, N.leb_refl in E.
      pose proof Hm as Hm'. apply N.eqb_neq in Hm'. rewrite Hm' in E. cbn in E. subst s'. rewrite Hm' in Cu. intros _. sm.
      assert (Ql : forall b, last s b = None).
      { pose proof (i_phase _ _ I) as P. rewrite Hc in P. inversion P; subst; try (destruct (changed s); discriminate).
        match goal with B : base s |- _ => apply B; trivial end. }
      split; [right; rewrite Cu; lia|intros b x Hb; now rewrite Ql in Hb].
    + apply Z0. injection E as <-. exact R0.
    + apply Z0. destruct (_ || _); injection E as <-; exact R0.
    + apply Z0. rewrite W0, C0 in E. injection E as <-. exact R0.
    + apply Z0. rewrite W0 in E. destruct (cache s); injection E as <-; exact R0.
  - destruct B as (n & na & m & Nk & A1 & A2 & A3 & A4 & A5 & A6 & Rw & Lb & Lt & Ok & H).
    assert (Zn : n <> 0) by (destruct A1; lia).
    pose proof (codes_kind (e := e) D k n m s i c Zn H Hc) as X.
    pose proof W as T. destruct (W ltac:(congruence)) as (W1 & W2). rewrite A3 in W1, W2, Nb.
    destruct X as [(-> & -> & Cu & _ & ->)|[(-> & _ & Cu & Hm)|[(-> & -> & T0 & Ch & Mz & ->)|X]]].
    + cbn [exec] in E. injection E as E. unfold put_buffer in E. sm.
      destruct (set_ok (nSamp e) (tb s) (N.to_nat (m mod n)) (fst (ants e m)) (snd (ants e m)) (D m) (HD m)) as (b & Eb & Lb' & _).
      rewrite Eb in E. subst s'. intros _. sm. rewrite A3. split; [|exact W2]. right.
      pose proof (N.mod_lt m n Zn) as Lm. pose proof (N.div_mod m n Zn) as Em. rewrite Cu in *. rewrite Lb'.
      rewrite (N.mul_comm n) in Em. clear - Em Lm W1 Lk.
      revert Em Lm W1. generalize (m / n * n) (m mod n). intros a c Em Lm W1. destruct W1 as [W1|W1]; [rewrite W1; cbn [length]|]; lia.
    + cbn [exec] in E. pose proof (codes_store k n m s c H Hc) as Cs. destruct (_ || _); injection E as <-; [now apply (among_ext k s)|].
      unfold notify. intros _. sm. rewrite A3. split; [now left|]. intros b x. unfold upd_map. destruct (N.eqb_spec b (cur s)) as [->|]; [|apply W2]. intros [= <-].
      pose proof (N.mul_div_le (m - 1) n Zn) as Le. rewrite <- Cu in Le.
      destruct Cs as [(-> & Mz & Cl)|(Cl & ->)].
      * destruct (div_pred n m Zn Mz Hm) as (D1 & D2). pose proof (N.div_mod m n Zn) as Em. rewrite Mz, N.add_0_r in Em. rewrite <- Cu in D1. 
        assert (Q : (cur s + 1) * n = m) by (replace (cur s + 1) with (m / n) by lia; lia).
        split; [|intros _; lia]. nia.
      * split; [|congruence]. specialize (Ck Cl). destruct W1 as [W1|W1]; [rewrite W1; cbn [length]; lia|lia].
    + cbn [exec] in E. injection E as E. unfold load in E. sm. pose proof (N.div_mod m n Zn) as Em.
      assert (T' : among (m + 1) s'); [|exact T'].
      assert (Q : forall t, (t = [] \/ m / n * n + N.of_nat (length t) <= K) -> cur s' = m / n -> tb s' = t -> rpb s' = n -> last s' = last s -> closed s' = closed s -> among (m + 1) s').
      { intros t Ht E1 E2 E3 E4 E5 _. rewrite E1, E2, E3, E4, E5. split; [exact Ht|exact W2]. }
      assert (Ld : forall rows, N.of_nat (length rows) = n -> m / n < nblk s -> N.of_nat (length (decoded e n (m / n) rows)) + m / n * n <= K).
      { intros rows Hr Hl. unfold decoded. rewrite map_length, combine_length, seq_length, Nat.min_id. specialize (Nb _ _ Hc). nia. }
      assert (Fn : file s (m / n) = None).
      { apply (i_file _ _ I). destruct (last s (m / n)) eqn:Q1; trivial. exfalso. assert (X : last s (m / n) <> None) by congruence. apply Lb in X. nia. }
      destruct (cached (cache s) (m / n)); sm; rewrite Fn in E; destruct (N.ltb_spec (m / n) (nblk s)) as [Ln|Ln];
        try (destruct junk as [rows|]; [|subst s'; sm; discriminate]; destruct J as (J1 & J2); rewrite A3 in *; specialize (Ld rows J1 Ln);
             apply (Q (decoded e n (m / n) rows)); subst s'; sm; trivial; right; lia);
        (apply (Q []); subst s'; sm; trivial; now left).
    + destruct i; try contradiction; cbn [exec] in E.
      * rewrite A3 in E. apply N.eqb_neq in Zn. rewrite Zn in E. injection E as <-. now apply (among_ext k s).
      * rewrite A3 in E. apply N.eqb_neq in Zn. rewrite Zn in E. destruct (_ =? _); injection E as <-; now apply (among_ext k s).
      * destruct (workers s); destruct (cache s); injection E as <-; now apply (among_ext k s).
      * destruct (forallb _ _); [|discriminate]. injection E as <-. now apply (among_ext k s).
      * injection E as <-. now apply (among_ext k s).
      * injection E as <-. apply (among_ext k s); trivial. sm. discriminate.
  - destruct O as (_ & n & na & Fn & An & L & R0 & W0 & F0 & C0 & Cu & Ch & (Lf & Fi) & H & Cl).
    assert (Ql : forall b, last s b = None).
    { pose proof (i_phase _ _ I) as P. rewrite H in P. inversion P; subst; try (destruct (changed s); discriminate);
      match goal with B : base s |- _ => apply B; trivial end. }
    rewrite Hc in H. injection H as -> ->. cbn [exec] in E.
    assert (Zn : n <> 0) by (destruct Fn; lia). pose proof Zn as Zn'. apply N.eqb_neq in Zn'. rewrite Zn' in E.
    assert (X : (N.of_nat (length (tb s)) <=? n) = true) by (apply N.leb_le; lia). rewrite X in E. cbn in E. injection E as <-. intros _. sm.
    split; [|intros b x Hb; now rewrite Ql in Hb].
    destruct (N.eqb_spec k 0) as [->|Hk]; [left; destruct (tb s); trivial; cbn in Lf; lia|]. right. rewrite Cu. lia.
Qed.

Lemma among_step k (s s' : state e) : ord o D k s -> inv (fun _ => None) s -> k <= K -> (closed s = true -> k = K) ->
  (forall b c', code s = ILoad b :: c' -> nblk s * rpb s <= K) -> among k s -> step s s' -> code s <> [] \/ code s' = [] ->
  status s' = Running -> among k s'.
Proof.
  intros Or I Lk Ck Nb W St Nc R. inversion St as [? Si|a R0 C0 C1 A|j Hj|Hj|j H1 H2 H3]; subst; try exact W.
  inversion Si as [junk i c ? _ Hc Mw E J|j w y s1 w1 _ Hw Hy E]; subst; [eapply among_main; eauto|].
  apply (among_ext k s); trivial; (destruct w as [| | |b x|b|]; cbn [wexec] in E; unfold pick in E;
      repeat match type of E with
      | (if ?b then _ else _) = Some _ => destruct b
      | match match ?b with _ => _ end with _ => _ end = Some _ => destruct b
      | match ?b with _ => _ end = Some _ => destruct b
      end; try discriminate; injection E as <- <-; try reflexivity; now intros H).
Qed.

(** a block no row of which is beyond row [k] holds exactly the rows put *)
Lemma exact_from k n b (x : tbb (data e)) : n <> 0 -> b * n < k -> block_of e D k n b x -> b * n + N.of_nat (length x) <= k -> exact_block e D k n b x.
Proof.
  intros Zn Hb Hb1 S2. split; trivial. destruct Hb1 as (L1 & _ & Hr1). set (r := N.min (b * n + n) k - 1).
  assert (Hr' : r < k /\ b * n <= r /\ r < b * n + n /\ N.min n (k - b * n) = r - b * n + 1) by (unfold r; lia). destruct Hr' as (R1 & R2 & R3 & R4).
  assert (Hd : r / n = b) by (symmetry; apply (N.div_unique _ _ _ (r - b * n)); lia).
  assert (Hm : r mod n = r - b * n) by (symmetry; apply (N.mod_unique _ _ b); lia).
  destruct (Hr1 r R1 Hd) as (row & Hrow & _). rewrite Hm in Hrow.
  assert (N.to_nat (r - b * n) < length x)%nat by (apply nth_error_Some; congruence). lia.
Qed.
End among.
