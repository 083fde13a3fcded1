(** The blocks of a column written in row order, as a whole. *)
From Verif Require Import Base BaseLemmas TimeBlockBuffer TbbSpec TbbProofs Column ColumnSpec ColumnProofs ColumnInv ColumnReach ColumnTerm ColumnData ColumnOrder.
Local Open Scope N_scope.
Local Arguments busy : simpl never. Local Arguments upd : simpl never. Local Arguments insert : simpl never.
Local Arguments erase : simpl never. Local Arguments cached : simpl never. Local Arguments markWritten : simpl never.
Local Arguments maxCache : simpl never.

Lemma alone_order {e} o D k (s : state e) : in_order_alone D k s -> in_order o D k s.
Proof. induction 1; [constructor|now apply io_put|now apply io_close|eapply io_step; eauto]. Qed.

Section whole.
Context {e : env} (o : Prop) (D : N -> list (data e)) (HD : forall r, (nSamp e <= length (D r))%nat) (NT : (nthreads e <> 0)%nat).

Definition noted (s : state e) : Prop := forall b, b < nblk s -> last s b <> None.

Section rows.
(** something true of the rows put *)
Context (Q : N -> list (data e) -> Prop) (HQ : forall r, Q r (firstn (nSamp e) (D r))).

(** rows of block [b] with the right antennas and number of samples *)
Definition whole (n b : N) (x : tbb (data e)) : Prop :=
  (length x <= N.to_nat n)%nat /\
  forall i row, nth_error x i = Some row ->
    (antenna1 row, antenna2 row) = ants e (b * n + N.of_nat i) /\ length (visibilities row) = nSamp e /\ Q (b * n + N.of_nat i) (visibilities row).

Definition wholes (s : state e) : Prop :=
  rpb s <> 0 -> whole (rpb s) (cur s) (tb s) /\ forall b x, last s b = Some x -> whole (rpb s) b x /\ x <> [].

Lemma wholes_ext (s s' : state e) : wholes s -> rpb s' = rpb s -> cur s' = cur s -> tb s' = tb s -> last s' = last s -> wholes s'.
Proof. intros H E1 E2 E3 E4. unfold wholes. now rewrite E1, E2, E3, E4. Qed.

Lemma whole_nil n b : whole n b [].
Proof. split; [cbn; lia|]. intros [|i] row H; discriminate. Qed.

Lemma whole_set n b t r m b' : m < n -> whole n b t -> SetData (nSamp e) t (N.to_nat m) (fst (ants e r)) (snd (ants e r)) (D r) = Ok b' ->
  b * n + m = r -> (N.to_nat m <= length t)%nat -> whole n b b'.
Proof.
  intros Lm (W1 & W2) E Er Lt.
  destruct (set_ok (nSamp e) t (N.to_nat m) (fst (ants e r)) (snd (ants e r)) (D r) (HD r)) as (b2 & E' & Lb & Rb & Ob).
  rewrite E in E'. injection E' as <-. split; [lia|]. intros i row Hi. destruct (Nat.eq_dec i (N.to_nat m)) as [->|Hn].
  - unfold row_at in Rb. rewrite Hi in Rb. subst row. rewrite N2Nat.id, Er. cbn. split; [now destruct (ants e r)|]. split; [|apply HQ].
    rewrite firstn_length. pose proof (HD r). lia.
  - specialize (Ob i Hn). unfold row_at in Ob. rewrite Hi in Ob.
    assert (i < length b')%nat by (apply nth_error_Some; congruence).
    destruct (nth_error t i) as [rw|] eqn:Ei; [subst row; now apply W2|]. apply nth_error_None in Ei. lia.
Qed.

Lemma whole_decoded n b rows : N.of_nat (length rows) = n -> Forall (fun v => length v = nSamp e) rows -> (forall r v, Q r v) -> whole n b (decoded e n b rows).
Proof.
  intros L F AQ. unfold decoded. split; [rewrite map_length, combine_length, seq_length; lia|]. intros i row H.
  rewrite nth_error_map in H. destruct (nth_error (combine _ _) i) as [(j & v)|] eqn:E; [|discriminate]. cbn in H. injection H as <-.
  assert (Hj : nth_error (seq 0 (length rows)) i = Some j /\ nth_error rows i = Some v).
  { clear - E. revert i E. generalize 0%nat. induction rows as [|a rows IH]; intros k [|i] E; cbn in *; try discriminate.
    - now injection E as -> ->.
    - now apply IH. }
  destruct Hj as (Hj & Hv). assert (Li : (i < length rows)%nat) by (apply nth_error_Some; congruence).
  assert (j = i). { rewrite (nth_error_nth' _ 0%nat) in Hj by (rewrite seq_length; lia). rewrite seq_nth in Hj by lia. cbn in Hj. congruence. }
  subst j. cbn. split; [now destruct (ants e (b * n + N.of_nat i))|]. split; [|apply AQ]. rewrite Forall_forall in F. apply F. eapply nth_error_In; eauto.
Qed.

Lemma step_other (s s' : state e) : step s s' -> (exists a, s' = set_code s (call_code a)) \/
  (exists junk i c, status s = Running /\ code s = i :: c /\ exec junk s i c = Some s' /\ junk_ok s junk) \/
  (rpb s' = rpb s /\ cur s' = cur s /\ tb s' = tb s /\ last s' = last s).
Proof.
  intros S. inversion S as [? St|a R0 C0 C1 A|j H|H|j H1 H2 H3]; subst; [|now left; eauto|now right; right; repeat split..].
  inversion St as [junk i c ? R Hc Mw E J|j w y s1 w1 _ Hw Hy E]; subst; [right; left; now exists junk, i, c|]. right. right.
  destruct w as [| | |b x|b|]; cbn [wexec] in E; unfold pick in E;
      repeat match type of E with
      | (if ?b then _ else _) = Some _ => destruct b
      | match match ?b with _ => _ end with _ => _ end = Some _ => destruct b
      | match ?b with _ => _ end = Some _ => destruct b
      end; try discriminate; injection E as <- <-; now repeat split.
Qed.

(** what the calling thread does when the block size is known *)
Lemma codes_kind k n m (s : state e) i c : n <> 0 -> codesB D k n m s -> code s = i :: c ->
  i = ISet (m mod n) m (D m) /\ c = [] /\ cur s = m / n /\ (changed s = true \/ m mod n = 0) /\ k = m + 1 \/
  i = IStore /\ changed s = true /\ cur s = (m - 1) / n /\ m <> 0 \/
  i = ILoad (m / n) /\ c = [ISet (m mod n) m (D m)] /\ tb s = [] /\ changed s = false /\ m mod n = 0 /\ k = m + 1 \/
  match i with IPut _ _ | IPutRow _ _ | IStop | IJoin | IStart | IShutdown => True | _ => False end.
Proof.
  intros Zn H Hc.
  destruct H as [(_ & Ch & Cu & Hm & [(B & _)|[(_ & [B|[B|[B|[B|B]]]])|[(-> & Mz & B)|[(_ & _ & B)|[(_ & B)|(_ & [B|[B|B]])]]]]])|[(_ & Ch & -> & Mz & [(B & T0)|(B & Cu)])|[(Cl & _ & [(Ch & Cu & Hm & B)|(_ & [B|[B|B]])])|(_ & _ & _ & _ & _ & [(_ & [B|[B|[B|[B|B]]]])|(_ & [B|B])])]]];
    rewrite Hc in B; try discriminate; injection B as -> ->; try tauto.
  left. rewrite Cu, div_pred2 by trivial. tauto.
Qed.

Lemma wholes_main k (s s' : state e) junk i c : (forall r v, Q r v) \/ noted s -> ord o D k s -> inv (fun _ => None) s -> wholes s -> code s = i :: c -> exec junk s i c = Some s' -> junk_ok s junk ->
  status s' = Running -> wholes s'.
Proof.
  intros AQ [A|[B|O]] I W Hc E J R.
  - destruct A as (m & R0 & W0 & F0 & K0 & H).
    assert (K : rpb s' = 0 -> wholes s') by (intros Z Z'; congruence).
    destruct H as [((C0 & Cu & Ch & Fi & Ky) & [H|[H|[H|[H|[H|[H|H]]]]]])|H]; destruct H as (H & Cl & Hk); rewrite Hc in H; try discriminate; injection H as -> ->; cbn [exec] in E.
    + apply K. rewrite R0 in E. cbn [N.eqb] in E. assert (P : forall (t : state e) r row d, rpb (put_buffer t r row d) = rpb t) by (intros; unfold put_buffer; destruct (SetData _ _ _ _ _ _); reflexivity).
      destruct (Empty (tb s)); [|destruct (keys_differ _ _ _)]; injection E as <-; rewrite ?P; exact R0.
    + destruct Hk as (-> & Hm & Hs). injection E as E. destruct Fi as (L & Fi). rewrite L, N2Nat.id, N.leb_refl in E.
      pose proof Hm as Hm'. apply N.eqb_neq in Hm'. rewrite Hm' in E. cbn in E. subst s'. rewrite Hm' in Cu. intros _. sm.
      assert (Ql : forall b, last s b = None).
      { pose proof (i_phase _ _ I) as P. rewrite Hc in P. inversion P; subst; try (destruct (changed s); discriminate).
        match goal with B : base s |- _ => apply B; trivial end. }
      split; [|intros b x Hb; now rewrite Ql in Hb]. rewrite Cu. split; [lia|]. intros i row Hi.
      assert (i < length (tb s))%nat by (apply nth_error_Some; congruence). specialize (Fi (N.of_nat i) ltac:(lia)). rewrite Nat2N.id, Hi in Fi. injection Fi as ->.
      cbn [antenna1 antenna2 visibilities]. rewrite N.mul_0_l, N.add_0_l. split; [now destruct (ants e (N.of_nat i))|]. split; [|apply HQ]. rewrite firstn_length. pose proof (HD (N.of_nat i)). lia.
    + apply K. injection E as <-. exact R0.
    + apply K. destruct (_ || _); injection E as <-; exact R0.
    + apply K. rewrite W0, C0 in E. injection E as <-. exact R0.
    + apply K. rewrite W0 in E. destruct (cache s); injection E as <-; exact R0.
  - destruct B as (n & na & m & Nk & A1 & A2 & A3 & A4 & A5 & A6 & Rw & Lb & Lt & Ok & H).
    assert (Zn : n <> 0) by (destruct A1; lia).
    pose proof (codes_kind k n m s i c Zn H Hc) as X.
    destruct (W ltac:(congruence)) as (W1 & W2). rewrite A3 in W1, W2.
    destruct X as [(-> & -> & Cu & Ch & _)|[(-> & Hch & Hcu & Hm0)|[(-> & -> & T0 & Ch0 & Mz & _)|X]]].
    + cbn [exec] in E. injection E as E. unfold put_buffer in E. sm.
      destruct (set_ok (nSamp e) (tb s) (N.to_nat (m mod n)) (fst (ants e m)) (snd (ants e m)) (D m) (HD m)) as (b & Eb & _).
      rewrite Eb in E. subst s'. intros _. sm. rewrite A3. split; [|exact W2].
      pose proof (N.mod_lt m n Zn) as Lm. pose proof (N.div_mod m n Zn) as Em.
      eapply whole_set; [exact Lm|exact W1|exact Eb|rewrite Cu; lia|].
      destruct (N.eq_dec (m mod n) 0) as [Mz|Mz]; [lia|]. destruct Ch as [Ch|Ch]; [|lia].
      pose proof (div_pred2 n m Zn Mz) as Dp.
      assert (Hm1 : m - 1 < m) by (assert (m <> 0) by (intros ->; now rewrite N.mod_0_l in Mz); lia). destruct (Rw (m - 1) Hm1) as [(_ & _ & rw' & H3 & _)|([X|X] & _)]; [|congruence..].
      assert (Hmod : (m - 1) mod n = m mod n - 1).
      { symmetry. apply (N.mod_unique _ _ (m / n)); [lia|]. remember (n * (m / n)) as a. remember (m mod n) as cc. clear - Em Mz. lia. }
      assert (N.to_nat ((m - 1) mod n) < length (tb s))%nat by (apply nth_error_Some; congruence). rewrite Hmod in *. lia.
    + cbn [exec] in E. destruct (_ || _); injection E as <-; [now apply (wholes_ext s)|]. unfold notify. intros _. sm. rewrite A3.
      split; [apply whole_nil|]. intros b x. unfold upd_map. destruct (N.eqb_spec b (cur s)) as [->|]; [|apply W2]. intros [= <-]. split; trivial.
      assert (Hm : m - 1 < m) by lia. destruct (Rw (m - 1) Hm) as [(_ & _ & rw' & H3 & _)|([X|X] & _)]; [|congruence..].
      intros T0. rewrite T0 in H3. now destruct (N.to_nat ((m - 1) mod n)) in H3.
    + cbn [exec] in E. injection E as E. unfold load in E. sm. assert (QQ : forall t, whole n (m / n) t -> wholes (set_buf (set_code s [ISet (m mod n) m (D m)]) (m / n) false t)).
      { intros t Ht _. sm. rewrite A3. now split. }
      assert (NoLoad : m / n < nblk s -> noted s -> False).
      { intros Hlt No. apply No, Lb in Hlt. pose proof (N.div_mod m n Zn). nia. }
      destruct (cached (cache s) (m / n)); sm.
      * destruct (N.ltb_spec (m / n) (nblk s)) as [Lt'|Lt']; [destruct (file s (m / n)) as [y|] eqn:Fy; [|destruct junk as [rows|]]|]; subst s'; sm; try discriminate.
        -- exfalso. assert (X : file s (m / n) = None); [|congruence]. apply (i_file _ _ I). destruct (last s (m / n)) eqn:Q1; trivial. exfalso. assert (X : last s (m / n) <> None) by congruence. apply Lb in X.
           pose proof (N.div_mod m n Zn). nia.
        -- destruct J as (J1 & J2). intros _. sm. rewrite A3 in *. split; [|exact W2]. destruct AQ as [AQ|AQ]; [now apply whole_decoded|]. exfalso. now apply NoLoad.
        -- intros _. sm. rewrite A3 in *. split; [rewrite T0; apply whole_nil|exact W2].
      * destruct (N.ltb_spec (m / n) (nblk s)) as [Lt'|Lt']; [destruct (file s (m / n)) as [y|] eqn:Fy; [|destruct junk as [rows|]]|]; subst s'; sm; try discriminate.
        -- exfalso. assert (X : file s (m / n) = None); [|congruence]. apply (i_file _ _ I). destruct (last s (m / n)) eqn:Q1; trivial. exfalso. assert (X : last s (m / n) <> None) by congruence. apply Lb in X.
           pose proof (N.div_mod m n Zn). nia.
        -- destruct J as (J1 & J2). rewrite A3. apply QQ. rewrite A3 in J1. destruct AQ as [AQ|AQ]; [now apply whole_decoded|]. exfalso. now apply NoLoad.
        -- rewrite T0. apply QQ. apply whole_nil.
    + destruct i; try contradiction; cbn [exec] in E.
      * rewrite A3 in E. apply N.eqb_neq in Zn. rewrite Zn in E. injection E as <-. now apply (wholes_ext s).
      * rewrite A3 in E. apply N.eqb_neq in Zn. rewrite Zn in E. destruct (_ =? _); injection E as <-; now apply (wholes_ext s).
      * destruct (workers s); destruct (cache s); injection E as <-; now apply (wholes_ext s).
      * destruct (forallb _ _); [|discriminate]. injection E as <-. now apply (wholes_ext s).
      * injection E as <-. now apply (wholes_ext s).
      * injection E as <-. now apply (wholes_ext s).
  - destruct O as (_ & n & na & Fn & An & L & R0 & W0 & F0 & C0 & Cu & Ch & (Lf & Fi) & H & Cl).
    assert (Ql : forall b, last s b = None).
    { pose proof (i_phase _ _ I) as P. rewrite H in P. inversion P; subst; try (destruct (changed s); discriminate);
      match goal with B : base s |- _ => apply B; trivial end. }
    rewrite Hc in H. injection H as -> ->. cbn [exec] in E.
    assert (Zn : n <> 0) by (destruct Fn; lia). pose proof Zn as Zn'. apply N.eqb_neq in Zn'. rewrite Zn' in E.
    assert (X : (N.of_nat (length (tb s)) <=? n) = true) by (apply N.leb_le; lia). rewrite X in E. cbn in E. injection E as <-. intros _. sm.
    split; [|intros b x Hb; now rewrite Ql in Hb].
    destruct (N.eqb_spec k 0) as [->|Hk]; [assert (T0 : tb s = []) by (destruct (tb s); trivial; cbn in Lf; lia); rewrite T0; apply whole_nil|].
    rewrite Cu. split; [lia|]. intros i row Hi.
    assert (i < length (tb s))%nat by (apply nth_error_Some; congruence). specialize (Fi (N.of_nat i) ltac:(lia)). rewrite Nat2N.id, Hi in Fi. injection Fi as ->.
    cbn [antenna1 antenna2 visibilities]. rewrite N.mul_0_l, N.add_0_l. split; [now destruct (ants e (N.of_nat i))|]. split; [|apply HQ]. rewrite firstn_length. pose proof (HD (N.of_nat i)). lia.
Qed.

Lemma wholes_reach k (s : state e) : (forall r v, Q r v) -> in_order o D k s -> status s = Running -> wholes s.
Proof.
  intros AQ H. induction H as [|k s H IH R C0 C1 L|k s H IH R C0 C1|k s s' H IH St Nc|k n na s H IH R C0 C1 O Z L L2 Fn An]; intros R1.
  - intros Z. now destruct Z.
  - exact (IH R).
  - exact (IH R).
  - pose proof (step_running _ _ St R1) as R. destruct (step_other _ _ St) as [(a & ->)|[(junk & i & c & _ & Hc & E & J)|(E1 & E2 & E3 & E4)]].
    + exact (IH R).
    + eapply (wholes_main k s s'); eauto; [eapply ord_reach; eauto|]. apply (inv_reach (fresh e)); trivial; [constructor|]. eapply order_reach; eauto.
    + now apply (wholes_ext s); auto.
  - exact (IH R).
Qed.

End rows.

Lemma order_last k n na (s : state e) : in_order o D k s -> status s = Running -> closed s = true -> code s = [] ->
  first_block e n -> antenna_count e n na -> n < k \/ rpb s <> 0 ->
  rpb s = n /\ nant s = na /\ forall b, b * n < k -> exists y x, last s b = Some x /\ file s b = Some y /\ enc e n na x y /\ block_of e D k n b x.
Proof.
  intros H R Cl C Fn An L. pose proof (order_reach _ _ _ _ H) as Hr.
  destruct (block_size_known o D HD k n na s NT H R C Fn An) as [(X1 & X2)|(X1 & X2 & _)]; [exfalso; destruct L; [lia|congruence]|]. split; trivial. split; trivial.
  destruct (on_disk (fresh e) s NT (starts_fresh) Hr R Cl C) as (_ & _ & Q & _). rewrite X1, X2 in Q.
  assert (Zn : n <> 0) by (destruct Fn; lia).
  destruct (wholes_reach (fun _ _ => True) (fun _ => Logic.I) k s (fun _ _ => Logic.I) H R) as (_ & W); [congruence|].
  destruct (ord_reach o D HD k s NT H R) as [(m & A1 & _)|[(n' & na' & m & B)|(_ & n' & na' & _ & _ & _ & B & _)]]; [congruence| |congruence].
  destruct B as (B0 & B1 & B2 & B3 & B4 & B5 & B6 & B7 & B8 & B9 & B10 & B).
  assert (En : n' = n) by congruence. rewrite En in *. clear En.
  assert (k = m /\ changed s = false) as (-> & Ch).
  { destruct B as [(B & _)|[(B & _)|[(_ & -> & [(_ & _ & _ & B)|(B & _)])|(B & _)]]]; try congruence. now split. }
  assert (B7' : forall r, r < m -> exists x, last s (r / n) = Some x /\ holds D n r x).
  { intros r Hlt. destruct (B7 r Hlt) as [(B' & _)|(_ & B')]; [congruence|trivial]. }
  intros b Hb. destruct (B7' (b * n) Hb) as (x & Hx & _). rewrite N.div_mul in Hx by trivial.
  destruct (Q _ _ Hx) as (y & Y1 & Y2). exists y, x. split; trivial. split; trivial. split; trivial.
  destruct (W _ _ Hx) as ((W1 & W2) & _). rewrite X1 in *. split; [lia|]. split; [intros i row Hi; destruct (W2 i row Hi) as (W3 & W4 & _); now split|].
  intros r Hlt Hd. destruct (B7' r Hlt) as (x' & Hx' & rw & Hrw). rewrite Hd, Hx in Hx'. injection Hx' as <-. eauto.
Qed.

Lemma order_blocks k n na (s : state e) : in_order o D k s -> status s = Running -> closed s = true -> code s = [] ->
  first_block e n -> antenna_count e n na -> n < k \/ rpb s <> 0 ->
  rpb s = n /\ nant s = na /\ forall b, b * n < k -> exists y x, file s b = Some y /\ enc e n na x y /\ block_of e D k n b x.
Proof.
  intros H R Cl C Fn An L. destruct (order_last k n na s H R Cl C Fn An L) as (X1 & X2 & Q). split; trivial. split; trivial.
  intros b Hb. destruct (Q b Hb) as (y & x & _ & Q'). eauto.
Qed.

(** ** Without other columns *)

Definition short (k : N) (s : state e) : Prop :=
  noted s /\ (rpb s <> 0 -> cur s * rpb s + N.of_nat (length (tb s)) <= k /\ forall b x, last s b = Some x -> b * rpb s + N.of_nat (length x) <= k).

Lemma short_ext k (s s' : state e) : short k s -> rpb s' = rpb s -> cur s' = cur s -> tb s' = tb s -> last s' = last s -> nblk s' = nblk s -> short k s'.
Proof. intros H E1 E2 E3 E4 E5. unfold short, noted. now rewrite E1, E2, E3, E4, E5. Qed.

Lemma short_more k k' (s : state e) : short k s -> k <= k' -> short k' s.
Proof. intros (H1 & H2) L. split; trivial. intros Z. destruct (H2 Z) as (H3 & H4). split; [lia|]. intros b x Hx. specialize (H4 b x Hx). lia. Qed.

(** blocks before one that was stored were stored *)
Lemma stored_before k (s : state e) b b' : ord False D k s -> rpb s <> 0 -> last s b <> None -> b' <= b -> last s b' <> None.
Proof.
  intros [(m & A & _)|[B|([] & _)]] Z Hb L; [congruence|]. destruct B as (n & na & m & Nk & A1 & A2 & A3 & A4 & A5 & A6 & Rw & Lb & Lt & Ok & H).
  destruct (N.eq_dec b' b) as [->|Hn]; trivial. rewrite A3 in Z. pose proof (Lb b Hb) as Hm.
  destruct (Rw (b' * n)) as [(Ch & Cu & _)|(_ & x & Hx & _)]; [nia| |rewrite N.div_mul in Hx by trivial; congruence].
  rewrite N.div_mul in Cu by trivial.
  assert (Q : cur s = (m - 1) / n).
  { destruct H as [(_ & _ & Cu' & _)|[(_ & Ch' & _)|[(_ & _ & [(_ & Cu' & _)|(Ch' & _)])|(_ & Ch' & _)]]]; congruence. }
  assert (b <= (m - 1) / n); [|lia]. rewrite <- (N.div_mul b n) by trivial. apply N.div_le_mono; [trivial|lia].
Qed.

Lemma short_main k (s s' : state e) junk i c : ord False D k s -> inv (fun _ => None) s -> short k s -> code s = i :: c -> exec junk s i c = Some s' -> junk_ok s junk ->
  status s' = Running -> short k s'.
Proof.
  intros [A|[B|([] & _)]] I W Hc E J R.
  - destruct A as (m & R0 & W0 & F0 & K0 & H).
    assert (K : rpb s' = 0 -> nblk s' = nblk s -> last s' = last s -> short k s') by (intros Z E1 E2; split; [unfold noted; rewrite E1, E2; apply W|intros Z'; congruence]).
    destruct H as [((C0 & Cu & Ch & Fi & Ky) & [H|[H|[H|[H|[H|[H|H]]]]]])|H]; destruct H as (H & Cl & Hk); rewrite Hc in H; try discriminate; injection H as -> ->; cbn [exec] in E.
    + assert (P : forall (t : state e) r row d, rpb t = rpb s -> nblk t = nblk s -> last t = last s -> put_buffer t r row d = s' -> short k s').
      { intros t r row d P1 P2 P3 <-. revert K. unfold put_buffer. destruct (SetData _ _ _ _ _ _); intros K; apply K; sm; congruence. }
      rewrite R0 in E. cbn [N.eqb] in E. destruct (Empty (tb s)); [|destruct (keys_differ _ _ _)]; injection E as E.
      * now apply P in E.
      * subst s'. now apply K.
      * now apply P in E.
    + destruct Hk as (-> & Hm & Hs). injection E as E. destruct Fi as (L & Fi). rewrite L, N2Nat.id, N.leb_refl in E.
      pose proof Hm as Hm'. apply N.eqb_neq in Hm'. rewrite Hm' in E. cbn in E. subst s'. rewrite Hm' in Cu. split; [apply W|]. intros _. sm.
      assert (Ql : forall b, last s b = None).
      { pose proof (i_phase _ _ I) as P. rewrite Hc in P. inversion P; subst; try (destruct (changed s); discriminate).
        match goal with B : base s |- _ => apply B; trivial end. }
      split; [rewrite Cu; lia|intros b x Hb; now rewrite Ql in Hb].
    + injection E as <-. now apply K.
    + destruct (_ || _); injection E as <-; [now apply K|].
      split; [|intros Z; sm; congruence]. unfold noted. sm. intros b Hb. unfold upd_map. destruct (b =? cur s); [discriminate|now apply W].
    + rewrite W0, C0 in E. injection E as <-. now apply K.
    + rewrite W0 in E. destruct (cache s); injection E as <-; now apply K.
  - pose proof B as B'. destruct B as (n & na & m & Nk & A1 & A2 & A3 & A4 & A5 & A6 & Rw & Lb & Lt & Ok & H).
    assert (Zn : n <> 0) by (destruct A1; lia).
    pose proof (codes_kind k n m s i c Zn H Hc) as X.
    destruct W as (W0 & W). destruct (W ltac:(congruence)) as (W1 & W2). rewrite A3 in W1, W2.
    destruct X as [(-> & -> & Cu & _ & ->)|[(-> & _)|[(-> & -> & T0 & Ch & Mz & ->)|X]]].
    + cbn [exec] in E. injection E as E. unfold put_buffer in E. sm.
      destruct (set_ok (nSamp e) (tb s) (N.to_nat (m mod n)) (fst (ants e m)) (snd (ants e m)) (D m) (HD m)) as (b & Eb & Lb' & _).
      rewrite Eb in E. subst s'. split; [exact W0|]. intros _. sm. rewrite A3. split; [|exact W2].
      pose proof (N.mod_lt m n Zn) as Lm. pose proof (N.div_mod m n Zn) as Em. rewrite Cu in *. rewrite Lb'. nia.
    + cbn [exec] in E. destruct (_ || _); injection E as <-; [now apply (short_ext k s)|]. split.
      * unfold noted, notify. sm. intros b Hb. unfold upd_map. destruct (b =? cur s); [discriminate|now apply W0].
      * unfold notify. intros _. sm. rewrite A3. split; [cbn [length]; lia|]. intros b x. unfold upd_map. destruct (N.eqb_spec b (cur s)) as [->|]; [|apply W2]. now intros [= <-].
    + cbn [exec] in E. injection E as E. unfold load in E. sm.
      assert (Nb : (m / n <? nblk s) = false).
      { apply N.ltb_ge. apply N.nlt_ge. intros Hlt. apply W0, Lb in Hlt. pose proof (N.div_mod m n Zn). nia. }
      assert (T : short (m + 1) s'); [|exact T].
      destruct (cached (cache s) (m / n)); sm; rewrite Nb in E; subst s'; (split; [exact W0|]; intros _; sm; rewrite A3, T0; cbn [length];
        split; [pose proof (N.div_mod m n Zn); nia|exact W2]).
    + assert (T : short k s) by (split; trivial; intros _; rewrite A3; now split). clear W0 W W1 W2.
      destruct i; try contradiction; cbn [exec] in E.
      * rewrite A3 in E. apply N.eqb_neq in Zn. rewrite Zn in E. injection E as <-. now apply (short_ext k s).
      * rewrite A3 in E. apply N.eqb_neq in Zn. rewrite Zn in E. destruct (_ =? _); injection E as <-; now apply (short_ext k s).
      * destruct (workers s); destruct (cache s); injection E as <-; now apply (short_ext k s).
      * destruct (forallb _ _); [|discriminate]. injection E as <-. now apply (short_ext k s).
      * injection E as <-. now apply (short_ext k s).
      * injection E as <-. now apply (short_ext k s).
Qed.

Lemma short_istep k (s s' : state e) : ord False D k s -> inv (fun _ => None) s -> short k s -> istep s s' -> status s' = Running -> short k s'.
Proof.
  intros Or I IH Si R1. inversion Si as [junk i c ? _ Hc Mw E J|j w y s1 w1 _ Hw Hy E]; subst; [eapply short_main; eauto|].
  destruct w as [| | |b x|b|]; cbn [wexec] in E; unfold pick in E;
  repeat match type of E with
  | (if ?b then _ else _) = Some _ => destruct b eqn:?
  | match match ?b with _ => _ end with _ => _ end = Some _ => destruct b
  | match ?b with _ => _ end = Some _ => destruct b
  end; try discriminate; injection E as <- <-; try now apply (short_ext k s).
  split; [|exact (proj2 IH)]. unfold noted, set_worker. sm. intros b' Hb'.
  assert (Hp : In (WPicked b x) (workers s)) by (eapply nth_error_In; eauto).
  pose proof (i_last _ _ I _ _ _ (i_picked _ _ I _ _ Hp)) as Hl.
  assert (Zr : rpb s <> 0). { destruct Or as [(m & _ & W0 & _)|[(n & na & m & _ & A1 & _ & A3 & _)|([] & _)]]; [rewrite W0 in Hp; destruct Hp|]. destruct A1. lia. }
  destruct (nblk s <=? b); [|now apply IH]. apply (stored_before k s b); trivial; [congruence|].
  pose proof (N.mod_le (b + 1) (2 ^ 64)). lia.
Qed.

Lemma short_reach k (s : state e) : in_order_alone D k s -> status s = Running -> short k s.
Proof.
  intros H. induction H as [|k s H IH R C0 C1 L|k s H IH R C0 C1|k s s' H IH St Nc Al]; intros R1.
  - split; [|intros Z; now destruct Z]. intros b Hb. cbn in Hb. lia.
  - apply (short_more k); [exact (IH R)|lia].
  - exact (IH R).
  - pose proof (step_running _ _ St R1) as R. specialize (IH R). apply (alone_order False) in H. pose proof (ord_reach False D HD k s NT H R) as Or.
    assert (I : inv (fun _ => None) s) by (apply (inv_reach (fresh e)); trivial; [constructor|eapply order_reach; eauto]).
    destruct Al as [Al|Al]; [eapply short_istep; eauto|].
    inversion St as [? Si|a R0 C0 C1 A|j Hj|Hj|j H1 H2 H3]; subst; try exact IH; [eapply short_istep; eauto|now apply (short_ext k s)].
Qed.

Lemma wholes_alone (Q : N -> list (data e) -> Prop) k (s : state e) : (forall r, Q r (firstn (nSamp e) (D r))) -> in_order_alone D k s -> status s = Running -> wholes Q s.
Proof.
  intros HQ H. induction H as [|k s H IH R C0 C1 L|k s H IH R C0 C1|k s s' H IH St Nc Al]; intros R1.
  - intros Z. now destruct Z.
  - exact (IH R).
  - exact (IH R).
  - pose proof (step_running _ _ St R1) as R. pose proof (alone_order o _ _ _ H) as Ho. destruct (step_other _ _ St) as [(a & ->)|[(junk & i & c & _ & Hc & E & J)|(E1 & E2 & E3 & E4)]].
    + exact (IH R).
    + eapply (wholes_main Q HQ k s s'); eauto; [right; now apply (short_reach k s)|eapply ord_reach; eauto|]. apply (inv_reach (fresh e)); trivial; [constructor|]. eapply order_reach; eauto.
    + now apply (wholes_ext Q s); auto.
Qed.

Lemma order_exact k n na (s : state e) : in_order_alone D k s -> status s = Running -> closed s = true -> code s = [] ->
  first_block e n -> antenna_count e n na -> n < k \/ rpb s <> 0 ->
  rpb s = n /\ nant s = na /\ forall b, b * n < k -> exists y x, file s b = Some y /\ enc e n na x y /\ exact_block e D k n b x.
Proof.
  intros H R Cl C Fn An L. pose proof (alone_order o _ _ _ H) as Ho. pose proof (order_reach _ _ _ _ Ho) as Hr.
  destruct (order_last k n na s Ho R Cl C Fn An L) as (X1 & X2 & Q). split; trivial. split; trivial. intros b Hb.
  destruct (Q b Hb) as (y & x & Hl & Hf & He & Hb1). exists y, x. split; trivial. split; trivial. split; trivial.
  assert (Zn : n <> 0) by (destruct Fn; lia).
  destruct (short_reach k s H R) as (_ & S2). destruct S2 as (_ & S2); [congruence|]. specialize (S2 b x Hl). rewrite X1 in S2.
  destruct Hb1 as (L1 & _ & Hr1). set (r := N.min (b * n + n) k - 1).
  assert (Hr' : r < k /\ b * n <= r /\ r < b * n + n /\ N.min n (k - b * n) = r - b * n + 1) by (unfold r; lia). destruct Hr' as (R1 & R2 & R3 & R4).
  assert (Hd : r / n = b) by (symmetry; apply (N.div_unique _ _ _ (r - b * n)); lia).
  assert (Hm : r mod n = r - b * n) by (symmetry; apply (N.mod_unique _ _ b); lia).
  destruct (Hr1 r R1 Hd) as (row & Hrow & _). rewrite Hm in Hrow.
  assert (N.to_nat (r - b * n) < length x)%nat by (apply nth_error_Some; congruence). lia.
Qed.

(** the blocks are within the file *)
Definition within (s : state e) : Prop := (forall b, file s b <> None -> b < nblk s) /\ nblk s < 2 ^ 64.

Lemma order_within k (s : state e) : in_order o D k s -> k <= 2 ^ 32 /\ (status s = Running -> within s).
Proof.
  intros H. induction H as [|k s H IH R C0 C1 L|k s H IH R C0 C1|k s s' H (K & IH) St Nc|k n na s H IH R C0 C1 O Z L L2 Fn An].
  - split; [lia|]. intros _. split; [intros b Hb; now destruct Hb|]. cbn. lia.
  - split; [lia|]. intros R1. now apply IH.
  - split; [apply IH|]. intros R1. now apply IH.
  - split; trivial. intros R1. pose proof (step_running _ _ St R1) as R. specialize (IH R).
    inversion St as [? Si|a R0 C0 C1 A|j Hj|Hj|j H1 H2 H3]; subst; try exact IH.
    2:{ destruct IH as (I1 & I2). split; [|exact H2]. intros b Hb. specialize (I1 b Hb). sm. lia. }
    inversion Si as [junk i c ? _ Hc Mw E J|j w y s1 w1 _ Hw Hy E]; subst.
    { assert (X : file s' = file s /\ nblk s' = nblk s).
      { destruct i; cbn [exec] in E; repeat match type of E with
        | (if ?b then _ else _) = Some _ => destruct b eqn:?
        | match match ?b with _ => _ end with _ => _ end = Some _ => destruct b
        | match ?b with _ => _ end = Some _ => destruct b
        end; try discriminate; injection E as <-; unfold put_buffer, load; repeat match goal with |- context [match ?x with _ => _ end] => destruct x end; now split. }
      destruct X as (X1 & X2). unfold within. now rewrite X1, X2. }
    assert (Hr : forall b x, In (WPicked b x) (workers s) -> b < 2 ^ 32).
    { intros b x Hp. assert (I : inv (fun _ => None) s) by (apply (inv_reach (fresh e)); trivial; [constructor|eapply order_reach; eauto]).
      pose proof (i_last _ _ I _ _ _ (i_picked _ _ I _ _ Hp)) as Hl.
      destruct (ord_reach o D HD k s NT H R) as [(m & _ & W0 & _)|[(n & na & m & _ & A1 & _ & A3 & _ & _ & A7 & _ & A8 & _)|(_ & n & na & _ & _ & _ & _ & W0 & _)]]; [rewrite W0 in Hp; destruct Hp| |rewrite W0 in Hp; destruct Hp].
      assert (b * n < m) by (apply A8; congruence). destruct A1 as (A1 & _). nia. }
    destruct w as [| | |b x|b|]; cbn [wexec] in E; unfold pick in E;
    repeat match type of E with
    | (if ?b then _ else _) = Some _ => destruct b eqn:?
    | match match ?b with _ => _ end with _ => _ end = Some _ => destruct b
    | match ?b with _ => _ end = Some _ => destruct b
    end; try discriminate; injection E as <- <-; try exact IH.
    assert (Hb : b < 2 ^ 32) by (eapply Hr, nth_error_In; eauto). unfold within, set_worker. sm. destruct IH as (I1 & I2).
    destruct (N.leb_spec (nblk s) b) as [Ln|Ln].
    + rewrite N.mod_small by lia. split; [|lia]. intros b' Hb'. unfold upd_map in Hb'. destruct (N.eqb_spec b' b); [lia|]. specialize (I1 b' Hb'). lia.
    + split; trivial. intros b' Hb'. unfold upd_map in Hb'. destruct (N.eqb_spec b' b); [lia|]. now apply I1.
  - split; [apply IH|]. intros R1. now apply IH.
Qed.

Lemma order_in_file k n na (s : state e) : in_order o D k s -> status s = Running -> closed s = true -> code s = [] ->
  first_block e n -> antenna_count e n na -> n < k \/ rpb s <> 0 -> (forall b, b * n < k -> b < nblk s) /\ nblk s < 2 ^ 64.
Proof.
  intros H R Cl C Fn An L. destruct (order_last k n na s H R Cl C Fn An L) as (X1 & X2 & Q).
  destruct (proj2 (order_within k s H) R) as (W1 & W2). split; trivial. intros b Hb.
  apply W1. destruct (Q b Hb) as (y & x & _ & Hl & _). congruence.
Qed.

(** ** The calls finish *)
Lemma order_picked Q k (s : state e) b x : wholes Q s -> in_order o D k s -> status s = Running -> In (WPicked b x) (workers s) -> whole Q (rpb s) b x /\ x <> [].
Proof.
  intros W H R Hin. assert (I : inv (fun _ => None) s) by (apply (inv_reach (fresh e)); trivial; [constructor|eapply order_reach; eauto]).
  assert (Z : rpb s <> 0).
  { destruct (ord_reach o D HD k s NT H R) as [(m & _ & Hw & _)|[(n & na & m & _ & A1 & _ & A3 & _)|(_ & n & na & _ & _ & _ & _ & Hw & _)]]; [rewrite Hw in Hin; destruct Hin| |rewrite Hw in Hin; destruct Hin]. destruct A1; lia. }
  destruct (W Z) as (_ & W2). apply W2. eapply (i_last _ _ I), (i_picked _ _ I). exact Hin.
Qed.

Lemma order_finish k (s : state e) a : in_order o D k s -> status s = Running -> code s = [] -> closed s = false ->
  next_call o D k s a -> inhabited (bytes e) ->
  (forall n na b x, whole (fun _ _ => True) n b x -> x <> [] -> encodable e n na x = true -> exists y, enc e n na x y) ->
  finishes (set_code s (call_code a)).
Proof.
  intros H R C Cl Ha Inh En. pose proof (order_reach _ _ _ _ H) as Hr.
  assert (H' : exists k', in_order o D k' (set_code s (call_code a))) by (destruct Ha as [(-> & L)|[->|(O & Z & n & na & -> & Ln & L2 & Fn & An)]]; [exists (k + 1); now apply io_put|exists k; now apply io_close|exists k; now apply io_other]).
  destruct H' as (k' & H'). apply (call_finishes_if (fresh e) _ (in_order o D k')); trivial.
  - apply starts_fresh.
  - intros t t' Ht Hc St. eapply io_step; [exact Ht|now constructor|now left].
  - intros t Ht Rt b x Hin Ex. destruct (order_picked _ k' t b x (wholes_reach (fun _ _ => True) (fun _ => Logic.I) k' t (fun _ _ => Logic.I) Ht Rt) Ht Rt Hin) as (W & Nx). eapply En; eauto.
  - eapply order_reach; eauto.
  - left. split; [exact (mgr_idle (fresh e) s NT starts_fresh Hr R C)|]. destruct Ha as [(-> & _)|[->|(_ & _ & n & na & -> & _)]]; cbn; intuition discriminate.
Qed.

Lemma alone_finish k (s : state e) a : in_order_alone D k s -> status s = Running -> code s = [] -> closed s = false ->
  (a = Put k (D k) /\ k < 2 ^ 32) \/ a = Shutdown -> inhabited (bytes e) ->
  (forall n na b x, whole (fun r v => v = firstn (nSamp e) (D r)) n b x -> x <> [] -> encodable e n na x = true -> exists y, enc e n na x y) ->
  finishes (set_code s (call_code a)).
Proof.
  intros H R C Cl Ha Inh En. pose proof (order_reach _ _ _ _ (alone_order False _ _ _ H)) as Hr.
  assert (H' : exists k', in_order_alone D k' (set_code s (call_code a))) by (destruct Ha as [(-> & L)| ->]; [exists (k + 1); now apply ioa_put|exists k; now apply ioa_close]).
  destruct H' as (k' & H'). apply (call_finishes_if (fresh e) _ (in_order_alone D k')); trivial.
  - apply starts_fresh.
  - intros t t' Ht Hc St. eapply ioa_step; [exact Ht|now constructor|now left|now left].
  - intros t Ht Rt b x Hin Ex. destruct (order_picked _ k' t b x (wholes_alone (fun r v => v = firstn (nSamp e) (D r)) k' t (fun _ => eq_refl) Ht Rt) (alone_order o _ _ _ Ht) Rt Hin) as (W & Nx). eapply En; eauto.
  - eapply order_reach, (alone_order False); eauto.
  - left. split; [exact (mgr_idle (fresh e) s NT starts_fresh Hr R C)|]. destruct Ha as [(-> & _)| ->]; cbn; intuition discriminate.
Qed.
End whole.
