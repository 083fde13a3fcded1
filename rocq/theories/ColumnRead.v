(** A column that is only read. *)
From Verif Require Import Base BaseLemmas TimeBlockBuffer TbbSpec TbbProofs Column ColumnSpec ColumnProofs ColumnInv ColumnReach ColumnTerm ColumnData.
Local Open Scope N_scope.
Local Arguments busy : simpl never. Local Arguments upd : simpl never. Local Arguments insert : simpl never.
Local Arguments erase : simpl never. Local Arguments cached : simpl never. Local Arguments markWritten : simpl never.
Local Arguments maxCache : simpl never.

Section read.
Context {e : env} (f : N -> option (bytes e)) (nb rp : N) (na : nat) (Zr : rp <> 0) (Hf : forall b, f b <> None -> b < nb) (ok : N -> Prop).

Definition answered (o : N * answer (data e)) : Prop :=
  ok (fst o) /\ forall y v, f (fst o / rp) = Some y -> nth_error (dec e rp na (fst o / rp) y) (N.to_nat (fst o mod rp)) = Some v -> snd o = AVals v.

Definition absent (n : N) (o : N * answer (data e)) : Prop := n <= fst o / rp -> snd o = AZero.

Definition small (row : N) : Prop := row / rp < 2 ^ 32 /\ ok row.

Record rinv (s : state e) : Prop := {
  r_file : file s = f; r_rpb : rpb s = rp; r_nant : nant s = na; r_chg : changed s = false; r_cache : cache s = [];
  r_nblk : nb <= nblk s;
  r_tb : cur s = noBlock \/ forall y, f (cur s) = Some y -> tb s = decoded e rp (cur s) (dec e rp na (cur s) y);
  r_len : cur s <> noBlock -> cur s < nblk s /\ (f (cur s) = None -> N.of_nat (length (tb s)) = rp);
  r_workers : forall w, In w (workers s) -> match w with WPicked _ _ | WWritten _ => False | _ => True end;
  r_outs : Forall answered (outs s);
  r_zero : Forall (absent (nblk s)) (outs s);
  r_code : (code s = [] \/ code s = [IShutdown] \/ code s = [IStop] \/ code s = [IJoin]) \/
    exists row, small row /\ (code s = [IGet row] \/
      (row / rp < nblk s /\ (code s = [IWaitNot (row / rp); IGetRow row] \/ code s = [IGetRow row] \/ code s = [ILoad (row / rp); IRead row] \/
        (cur s = row / rp /\ code s = [IRead row])))) }.

Lemma rinv_ext (s s' : state e) : rinv s -> file s' = file s -> rpb s' = rpb s -> nant s' = nant s -> changed s' = changed s -> cache s' = cache s ->
  nblk s <= nblk s' -> cur s' = cur s -> tb s' = tb s -> (forall w, In w (workers s') -> match w with WPicked _ _ | WWritten _ => False | _ => True end) ->
  outs s' = outs s -> code s' = code s -> rinv s'.
Proof.
  intros [R1 R2 R3 R4 R5 R6 R7 R7' R8 R9 R9' R10] E1 E2 E3 E4 E5 L E6 E7 W E8 E9. constructor; rewrite ?E1, ?E2, ?E3, ?E4, ?E5, ?E6, ?E7, ?E8, ?E9; trivial.
  - lia.
  - intros Z. destruct (R7' Z). split; [lia|trivial].
  - eapply Forall_impl; [|exact R9']. intros o Ho Hle. apply Ho. lia.
  - destruct R10 as [R10|(row & Sm & R10)]; [now left|right]. exists row. split; trivial. destruct R10 as [R10|(Lt & R10)]; [now left|right]. split; [lia|tauto].
Qed.

Lemma in_upd {A} (l : list A) k (x w : A) : In w (upd l k x) -> w = x \/ In w l.
Proof.
  revert k. induction l as [|a l IH]; intros [|k] H; cbn in H; try tauto.
  - destruct H as [->|H]; [now left|right; now right].
  - destruct H as [->|H]; [right; now left|]. destruct (IH k H); [now left|right; now right].
Qed.

Lemma small_noBlock row : small row -> row / rp <> noBlock.
Proof. unfold small, noBlock. intros (H & _) E. rewrite E in H. vm_compute in H. discriminate. Qed.

Lemma rinv_main (s s' : state e) junk i c : rinv s -> code s = i :: c -> exec junk s i c = Some s' -> junk_ok s junk -> status s' = Running -> rinv s'.
Proof.
  intros I Hc E J R. pose proof I as [R1 R2 R3 R4 R5 R6 R7 R7' R8 R9 R9' R10].
  destruct R10 as [[H|[H|[H|H]]]|(row & Sm & [H|(Lt & [H|[H|[H|(Cu & H)]]])])]; rewrite Hc in H; try discriminate; injection H as -> ->; cbn [exec] in E.
  - rewrite R4 in E. injection E as <-. constructor; sm; trivial. left. tauto.
  - rewrite R5 in E. destruct (workers s) eqn:W; injection E as <-.
    + constructor; sm; trivial; rewrite ?W; trivial. left. tauto.
    + constructor; sm; trivial; rewrite ?W; trivial; [|left; tauto].
      intros w0 Hw. apply in_map_iff in Hw. destruct Hw as (w1 & <- & Hw). specialize (R8 _ Hw). now destruct w1.
  - destruct (forallb _ _); [|discriminate]. injection E as <-. constructor; sm; trivial; [intros ? []|left; tauto].
  - rewrite R2 in E. pose proof Zr as Zr'. apply N.eqb_neq in Zr'. rewrite Zr' in E. destruct (N.leb_spec (nblk s) (row / rp)) as [L|L]; injection E as <-.
    + constructor; sm; trivial; [constructor; trivial|constructor; trivial; now intros _|left; tauto]. split; [apply Sm|]. intros y v Hy. cbn [fst] in Hy. exfalso. assert (row / rp < nb) by (apply Hf; congruence). lia.
    + constructor; sm; trivial. right. exists row. tauto.
  - rewrite R5 in E. cbn in E. injection E as <-. constructor; sm; trivial. right. exists row. tauto.
  - rewrite R2, R4 in E. destruct (N.eqb_spec (row / rp) (cur s)) as [Q|Q]; injection E as <-.
    + constructor; sm; trivial. right. exists row. split; trivial. right. split; trivial. right. right. right. now split.
    + constructor; sm; trivial. right. exists row. split; trivial. tauto.
  - injection E as E. unfold load in E. sm. rewrite R5 in E. cbn [cached existsb] in E. unfold cached in E. cbn in E.
    pose proof Lt as Lt'. apply N.ltb_lt in Lt'. rewrite Lt', R1, R2, R3 in E.
    destruct (f (row / rp)) as [y|] eqn:Fy; [|destruct junk as [rows|]]; subst s'; sm; [| |discriminate].
    + constructor; sm; trivial.
      * right. intros y' Hy'. congruence.
      * intros _. split; [trivial|congruence].
      * right. exists row. split; trivial. right. split; trivial. right. right. right. now split.
    + destruct J as (J1 & J2). constructor; sm; trivial.
      * right. congruence.
      * intros _. split; trivial. intros _. unfold decoded. rewrite map_length, combine_length, seq_length, Nat.min_id. congruence.
      * right. exists row. split; trivial. right. split; trivial. right. right. right. now split.
  - destruct (GetData (tb s) (N.to_nat (row mod rpb s))) as [v| |] eqn:G; injection E as <-; sm; try discriminate. rewrite R2 in G.
    constructor; sm; trivial; [|constructor; trivial|left; tauto].
    + constructor; trivial. split; [apply Sm|]. intros y v' Hy Hv. cbn [fst] in Hy, Hv. cbn [snd]. rewrite <- Cu in *.
      destruct R7 as [R7|R7]; [rewrite Cu in R7; now apply small_noBlock in R7|]. specialize (R7 _ Hy).
      destruct (decoded_nth rp (cur s) _ _ _ Hv) as (rw & Q1 & Q2). unfold GetData in G. rewrite R7, Q1 in G. injection G as <-. now rewrite Q2.
    + intros Hle. cbn [fst] in Hle. lia.
Qed.

Lemma rinv_step (s s' : state e) : rinv s -> step s s' -> code s <> [] \/ code s' = [] -> status s' = Running -> rinv s'.
Proof.
  intros I St Nc R. inversion St as [? Si|a R0 C0 C1 A|j Hj|Hj|j H1 H2 H3]; subst.
  - inversion Si as [junk i c ? _ Hc Mw E J|j w y s1 w1 _ Hw Hy E]; subst; [eapply rinv_main; eauto|].
    pose proof (r_workers _ I w (nth_error_In _ _ Hw)) as Ww. destruct w as [| | |b x|b|]; try contradiction; cbn [wexec] in E; unfold pick in E; try rewrite (r_cache _ I) in E; cbn in E;
      repeat match type of E with (if ?b then _ else _) = Some _ => destruct b eqn:? end; try discriminate; injection E as <- <-;
      (apply (rinv_ext s); trivial; [apply N.le_refl|]); intros w1 H1; cbn in H1; apply in_upd in H1; destruct H1 as [->|H1]; trivial; try (now destruct (stopF s)); now apply (r_workers _ I).
  - destruct Nc as [Nc|Nc]; [congruence|]. destruct a; discriminate.
  - apply (rinv_ext s); trivial; [apply N.le_refl|]. intros w1 H1. cbn in H1. apply in_upd in H1. destruct H1 as [->|H1]; trivial. now apply (r_workers _ I).
  - apply (rinv_ext s); trivial; [apply N.le_refl|]. apply (r_workers _ I).
  - apply (rinv_ext s); trivial. apply (r_workers _ I).
Qed.

Lemma rinv_reading (s : state e) : reading ok (opened e f nb rp na) s -> status s = Running -> rinv s.
Proof.
  intros H. induction H as [|s row H IH R C0 C1 L O|s H IH R C0 C1|s s' H IH St Nc]; intros R1.
  - constructor; trivial; try (now left); try apply N.le_refl; try (now constructor).
    + intros w Hw. apply repeat_spec in Hw. now subst.
    + left. now left.
  - destruct (IH R) as [I1 I2 I3 I4 I5 I6 I7 I7' I8 I9 I9' I10]. constructor; sm; trivial. right. exists row. split; [|now left].
    split; trivial. pose proof (N.div_le_upper_bound row rp row Zr). nia.
  - destruct (IH R) as [I1 I2 I3 I4 I5 I6 I7 I7' I8 I9 I9' I10]. constructor; sm; trivial. left. tauto.
  - eapply rinv_step; eauto. apply IH. eapply step_running; eauto.
Qed.

Lemma reading_reach s0 (s : state e) : reading ok s0 s -> reach s0 s.
Proof.
  intros H. induction H as [|s row H IH R C0 C1 L O|s H IH R C0 C1|s s' H IH St Nc]; [constructor|..]; eapply reach_step; eauto; now constructor.
Qed.

Lemma read_only (s : state e) : reading ok (opened e f nb rp na) s -> status s = Running ->
  file s = f /\ cache s = [] /\ forall row a, In (row, a) (outs s) -> ok row /\
    (nblk s <= row / rp -> a = AZero) /\
    (forall y v, f (row / rp) = Some y -> nth_error (dec e rp na (row / rp) y) (N.to_nat (row mod rp)) = Some v -> a = AVals v).
Proof.
  intros H R. pose proof (rinv_reading s H R) as I. split; [apply I|]. split; [apply I|]. intros row a Hin. pose proof (r_outs _ I) as O. pose proof (r_zero _ I) as Z.
  rewrite Forall_forall in O, Z. destruct (O _ Hin). split; trivial. split; trivial. exact (Z _ Hin).
Qed.

Lemma read_ends (s s' : state e) : reading ok (opened e f nb rp na) s -> status s = Running -> step s s' -> code s <> [] \/ code s' = [] -> status s' <> Running ->
  exists row, ok row /\ ((status s' = Thrown /\ code s = [ILoad (row / rp); IRead row] /\ row / rp < nblk s /\ f (row / rp) = None) \/
    (status s' = Undefined /\ code s = [IRead row] /\ exists y, f (row / rp) = Some y /\ nth_error (dec e rp na (row / rp) y) (N.to_nat (row mod rp)) = None)).
Proof.
  intros H R St Nc R'. pose proof (rinv_reading s H R) as I. pose proof I as [R1 R2 R3 R4 R5 R6 R7 R7' R8 R9 R9' R10].
  inversion St as [? Si|a R0 C0 C1 A|j Hj|Hj|j H1 H2 H3]; subst; try now contradiction R'.
  inversion Si as [junk i c ? _ Hc Mw E J|j w y s1 w1 _ Hw Hy E]; subst.
  2:{ exfalso. pose proof (r_workers _ I w (nth_error_In _ _ Hw)) as Ww. destruct w as [| | |b x|b|]; try contradiction; cbn [wexec] in E; unfold pick in E; try rewrite (r_cache _ I) in E; cbn in E;
      repeat match type of E with (if ?b then _ else _) = Some _ => destruct b eqn:? end; try discriminate; injection E as <- <-; now contradiction R'. }
  destruct R10 as [[Q|[Q|[Q|Q]]]|(row & Sm & [Q|(Lt & [Q|[Q|[Q|(Cu & Q)]]])])]; rewrite Hc in Q; try discriminate; injection Q as -> ->; cbn [exec] in E.
  - injection E as <-. now contradiction R'.
  - rewrite R5 in E. destruct (workers s) eqn:W; injection E as <-; now contradiction R'.
  - destruct (forallb _ _); [|discriminate]. injection E as <-. now contradiction R'.
  - destruct (_ =? _); [|destruct (_ <=? _)]; injection E as <-; now contradiction R'.
  - destruct (cached _ _); injection E as <-; now contradiction R'.
  - destruct (_ =? _); injection E as <-; now contradiction R'.
  - exists row. split; [apply Sm|]. left. injection E as E. unfold load in E. sm. rewrite R5 in E. unfold cached in E. cbn in E.
    pose proof Lt as Lt'. apply N.ltb_lt in Lt'. rewrite Lt', R1, R2, R3 in E.
    destruct (f (row / rp)) as [y|] eqn:Fy; [|destruct junk as [rows|]]; subst s'; sm; try (now contradiction R'). now repeat split.
  - exists row. split; [apply Sm|]. right. destruct (GetData (tb s) (N.to_nat (row mod rpb s))) as [v| |] eqn:G; injection E as <-; sm; try (now contradiction R').
    + unfold GetData in G. destruct (nth_error _ _); discriminate.
    + split; trivial. split; trivial. rewrite R2 in G. unfold GetData in G. destruct (nth_error (tb s) (N.to_nat (row mod rp))) eqn:Ge; [discriminate|].
      pose proof (small_noBlock _ Sm) as Nn. destruct R7 as [R7|R7]; [congruence|]. destruct R7' as (_ & R7'); [congruence|]. rewrite <- Cu.
      destruct (f (cur s)) as [y|] eqn:Fy.
      * exists y. split; trivial. rewrite (R7 _ eq_refl) in Ge. destruct (nth_error (dec e rp na (cur s) y) (N.to_nat (row mod rp))) eqn:Gd; trivial.
        destruct (decoded_nth rp (cur s) _ _ _ Gd) as (rw & Q1 & _). congruence.
      * specialize (R7' eq_refl). apply nth_error_None in Ge. pose proof (N.mod_lt row rp Zr). lia.
Qed.

Lemma reads_finish (s : state e) a : (nthreads e <> 0)%nat -> nb < 2 ^ 64 -> inhabited (bytes e) -> reading ok (opened e f nb rp na) s -> status s = Running -> code s = [] -> closed s = false ->
  (a = Shutdown \/ exists row, a = Get row /\ ok row /\ row < 2 ^ 32) -> finishes (set_code s (call_code a)).
Proof.
  intros NT Nb Inh H R C0 C1 Ha.
  assert (S0 : starts (opened e f nb rp na)) by now constructor.
  pose proof (reading_reach _ s H) as Hr. pose proof (mgr_idle _ s NT S0 Hr R C0) as M.
  assert (H' : reading ok (opened e f nb rp na) (set_code s (call_code a))) by (destruct Ha as [->|(row & -> & O & L)]; now constructor).
  apply (call_finishes_if (opened e f nb rp na) _ (reading ok (opened e f nb rp na))); trivial.
  - intros s1 s2 H1 Nc St. eapply rd_step; [exact H1|now constructor|now left].
  - intros s1 H1 R1 b x Hin. pose proof (r_workers _ (rinv_reading s1 H1 R1) _ Hin) as F. destruct F.
  - now apply reading_reach.
  - left. split; trivial. destruct Ha as [->|(row & -> & _)]; cbn; intuition discriminate.
Qed.
End read.
