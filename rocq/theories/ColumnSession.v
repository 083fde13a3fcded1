(** Reading rows of a column in the session in which they were put. *)
From Verif Require Import Base BaseLemmas TimeBlockBuffer TbbSpec TbbProofs Column ColumnSpec ColumnProofs ColumnInv ColumnReach ColumnTerm ColumnData ColumnOrder ColumnWhole ColumnAmong.
Local Open Scope N_scope.
Local Arguments busy : simpl never. Local Arguments upd : simpl never. Local Arguments insert : simpl never.
Local Arguments erase : simpl never. Local Arguments cached : simpl never. Local Arguments markWritten : simpl never.
Local Arguments maxCache : simpl never.

(** what a step of an encoding thread leaves as it is *)
Lemma worker_frame {e} f0 y (s s' : state e) w w' k : inv f0 s -> nth_error (workers s) k = Some w -> wexec y s w = Some (s', w') ->
  (forall b x, In (WPicked b x) (workers s) -> encodable e (rpb s) (nant s) x = true /\ b < 2 ^ 32) -> status s = Running ->
  let t := set_worker s' k w' in
  status t = Running /\ rpb t = rpb s /\ nant t = nant s /\ mgr t = mgr s /\ cur t = cur s /\ changed t = changed s /\ tb t = tb s /\ last t = last s /\
  code t = code s /\ closed t = closed s /\ outs t = outs s /\ nblk s <= nblk t /\
  forall b, cached (cache s) b = false -> cached (cache t) b = false /\ file t b = file s b.
Proof.
  intros I Hw E Pk R. destruct w as [| | |b x|b|]; cbn [wexec] in E; unfold pick in E.
  - destruct (stopF s); [|destruct (isWriteItemAvailable (cache s)) as [(b & x)|]]; injection E as <- <-; unfold set_worker; sm; repeat split; trivial; try apply N.le_refl. now rewrite mark_cached.
  - discriminate.
  - destruct (isWriteItemAvailable (cache s)) as [(b & x)|]; injection E as <- <-; unfold set_worker; sm; repeat split; trivial; try apply N.le_refl. now rewrite mark_cached.
  - destruct (Pk b x (nth_error_In _ _ Hw)) as (Ex & Lb). rewrite Ex in E. destruct (mgr s) eqn:Mg; [discriminate|]. injection E as <- <-. unfold set_worker. sm. repeat split; trivial.
    + destruct (N.leb_spec (nblk s) b) as [Q|Q]; [|apply N.le_refl]. rewrite N.mod_small; [lia|]. change (2 ^ 32) with 4294967296 in Lb. change (2 ^ 64) with 18446744073709551616. lia.
    + unfold upd_map. destruct (N.eqb_spec b0 b) as [->|]; trivial. exfalso. apply cached_false with (v := (x, true)) in H. apply H, (i_picked _ _ I). eapply nth_error_In; eauto.
  - injection E as <- <-. unfold set_worker, notify. sm. repeat split; trivial; try apply N.le_refl. rewrite cached_erase, H. now destruct (_ =? _).
  - discriminate.
Qed.

Section session.
Context {e : env} (s0 : state e) (n : N) (na : nat) (K : N) (D : N -> list (data e)).
Notation X := (upd_map (last s0) (cur s0) (tb s0)).
Hypotheses (NT : (nthreads e <> 0)%nat) (R0 : reach (fresh e) s0) (Run0 : status s0 = Running) (Er0 : rpb s0 = n) (En0 : nant s0 = na) (Zn : n <> 0)
  (C0 : code s0 = []) (Cl0 : closed s0 = false) (Ch0 : changed s0 = true).
Hypotheses (HX : forall r, r < K -> exists x rw, X (r / n) = Some x /\ nth_error x (N.to_nat (r mod n)) = Some rw /\ visibilities rw = firstn (nSamp e) (D r))
  (HE : forall b x, last s0 b = Some x \/ X b = Some x -> encodable e n na x = true /\ b < 2 ^ 32)
  (HL : forall b x y, X b = Some x -> enc e n na x y -> (length x <= length (dec e n na b y))%nat).
Let ok (r : N) := r < K.

(** the buffer holds a block that was read from the file *)
Definition loaded (s : state e) : Prop := cached (cache s) (cur s) = false /\
  exists x y, X (cur s) = Some x /\ file s (cur s) = Some y /\ enc e n na x y /\ tb s = decoded e n (cur s) (dec e n na (cur s) y).

(** the buffer is as it was left by the puts *)
Definition early (s : state e) : Prop := changed s = true /\ cur s = cur s0 /\ tb s = tb s0 /\ last s = last s0.
Definition late (s : state e) : Prop := changed s = false /\ last s = X.

Definition buf2 (s : state e) : Prop := early s \/ (late s /\ loaded s).

Definition inb (s : state e) (b : N) : Prop := b < nblk s /\ cached (cache s) b = false.

Inductive qcode (s : state e) : Prop :=
| Q_idle : code s = [] \/ code s = [IShutdown] -> closed s = false -> buf2 s -> qcode s
| Q_get row : row < K -> code s = [IGet row] \/ (code s = [IWaitNot (row / n); IGetRow row] /\ row / n < nblk s) \/ (code s = [IGetRow row] /\ inb s (row / n)) ->
    closed s = false -> buf2 s -> qcode s
| Q_read row : row < K -> code s = [IRead row] -> cur s = row / n -> closed s = false -> buf2 s -> qcode s
| Q_store row : row < K -> code s = [IStore; ILoad (row / n); IRead row] -> inb s (row / n) -> row / n <> cur s -> closed s = false -> early s -> qcode s
| Q_load row : row < K -> code s = [ILoad (row / n); IRead row] -> inb s (row / n) -> closed s = false -> late s -> qcode s
| Q_cstore : code s = [IStore; IStop] -> closed s = true -> early s -> qcode s
| Q_closed : code s = [IStop] \/ code s = [IJoin] \/ code s = [] -> closed s = true -> late s -> qcode s.

Record qinv (s : state e) : Prop := {
  q_run : status s = Running; q_rpb : rpb s = n; q_nant : nant s = na; q_mgr : mgr s = false; q_code : qcode s }.

Lemma early_ext (s s' : state e) : early s -> last s' = last s -> changed s' = changed s -> cur s' = cur s -> tb s' = tb s -> early s'.
Proof. unfold early. intros H -> -> -> ->. exact H. Qed.
Lemma late_ext (s s' : state e) : late s -> last s' = last s -> changed s' = changed s -> late s'.
Proof. unfold late. intros H -> ->. exact H. Qed.

Definition framed (s s' : state e) : Prop := forall b, cached (cache s) b = false -> cached (cache s') b = false /\ file s' b = file s b.
Lemma framed_same (s s' : state e) : cache s' = cache s -> file s' = file s -> framed s s'.
Proof. intros E1 E2 b. now rewrite E1, E2. Qed.

Lemma buf2_ext (s s' : state e) : buf2 s -> last s' = last s -> changed s' = changed s -> cur s' = cur s -> tb s' = tb s -> framed s s' -> buf2 s'.
Proof.
  intros [H|(H1 & H2 & x & y & H3 & H4 & H5 & H6)] E1 E2 E3 E4 F; [left; now apply (early_ext s)|right]. split; [now apply (late_ext s)|].
  destruct (F _ H2) as (F1 & F2). split; rewrite E3; trivial. exists x, y. rewrite F2, E4. auto.
Qed.
Lemma inb_ext (s s' : state e) b : inb s b -> nblk s <= nblk s' -> framed s s' -> inb s' b.
Proof. intros (H1 & H2) L F. destruct (F _ H2). split; trivial. lia. Qed.

Lemma qcode_ext (s s' : state e) : qcode s -> last s' = last s -> changed s' = changed s -> cur s' = cur s -> tb s' = tb s -> closed s' = closed s -> code s' = code s ->
  nblk s <= nblk s' -> framed s s' -> qcode s'.
Proof.
  intros H E1 E2 E3 E4 E5 E6 L F.
  destruct H as [H C B|row A H C B|row A H Cu C B|row A H Ib Nc C B|row A H Ib C B|H C B|H C B]; rewrite <- E6 in H; rewrite <- E5 in C.
  - apply Q_idle; trivial. now apply (buf2_ext s).
  - apply (Q_get _ row); trivial; [|now apply (buf2_ext s)]. destruct H as [H|[(H & Hb)|(H & Ib)]]; [now left|right; left; split; [trivial|lia]|right; right; split; trivial; now apply (inb_ext s)].
  - apply (Q_read _ row); trivial; [congruence|now apply (buf2_ext s)].
  - apply (Q_store _ row); trivial; [now apply (inb_ext s)|congruence|now apply (early_ext s)].
  - apply (Q_load _ row); trivial; [now apply (inb_ext s)|now apply (late_ext s)].
  - apply Q_cstore; trivial. now apply (early_ext s).
  - apply Q_closed; trivial. now apply (late_ext s).
Qed.

(** the row is in the buffer *)
Lemma buffer_row (s : state e) row : row < K -> cur s = row / n -> buf2 s ->
  exists rw, nth_error (tb s) (N.to_nat (row mod n)) = Some rw /\
   (visibilities rw = firstn (nSamp e) (D row) \/
    exists x y, X (row / n) = Some x /\ file s (row / n) = Some y /\ enc e n na x y /\ nth_error (dec e n na (row / n) y) (N.to_nat (row mod n)) = Some (visibilities rw)).
Proof.
  intros Hr Cu B. destruct (HX row Hr) as (x & rw & Hx & Hn & Hv). destruct B as [(B1 & B2 & B3 & B4)|(_ & _ & x' & y & L1 & L2 & L3 & L4)].
  - exists rw. split; [|now left]. rewrite B3. revert Hx. unfold upd_map. rewrite <- Cu, B2, N.eqb_refl. congruence.
  - rewrite Cu in L1, L2, L4. assert (x' = x) by congruence. subst x'.
    assert (Ld : (N.to_nat (row mod n) < length (dec e n na (row / n) y))%nat) by (pose proof (HL _ _ _ Hx L3); assert (N.to_nat (row mod n) < length x)%nat by (apply nth_error_Some; congruence); lia).
    destruct (nth_error (dec e n na (row / n) y) (N.to_nat (row mod n))) as [v|] eqn:Ev; [|apply nth_error_None in Ev; lia].
    destruct (decoded_nth n (row / n) _ _ _ Ev) as (rw' & Q1 & Q2). exists rw'. rewrite L4. split; trivial. right. exists x, y. now rewrite Q2.
Qed.

Lemma late_store (s : state e) : early s -> upd_map (last s) (cur s) (tb s) = X.
Proof. intros (_ & -> & -> & ->). reflexivity. Qed.

(** one instruction *)
Lemma qinv_main (s s' : state e) junk i c : inv (fun _ => None) s -> qinv s -> code s = i :: c -> exec junk s i c = Some s' -> qinv s'.
Proof.
  intros I [R Er En Mg H] Hc E.
  destruct H as [H C B|row A H C B|row A H Cu C B|row A H Ib Nc C B|row A H Ib C B|H C B|H C B].
  - destruct H as [H|H]; rewrite Hc in H; [discriminate|]. injection H as -> ->. cbn [exec] in E. injection E as <-. constructor; sm; trivial.
    destruct B as [B|(B & _)].
    + apply Q_cstore; sm; trivial. now rewrite (proj1 B).
    + apply Q_closed; sm; trivial. rewrite (proj1 B). now left.
  - destruct H as [H|[(H & Hb)|(H & Ib)]]; rewrite Hc in H; injection H as -> ->; cbn [exec] in E; rewrite ?Er in E.
    + destruct (N.eqb_spec n 0) as [Z|_]; [easy|]. destruct (N.leb_spec (nblk s) (row / n)) as [Lb|Lb]; injection E as <-; constructor; sm; trivial.
      * apply Q_idle; sm; trivial; now left.
      * apply (Q_get _ row); sm; trivial. right. left. now split.
    + destruct (cached (cache s) (row / n)) eqn:Ca; injection E as <-; constructor; sm; trivial; (apply (Q_get _ row); sm; trivial).
      * right. left. now split.
      * right. right. split; trivial. now split.
    + destruct (N.eqb_spec (row / n) (cur s)) as [Q|Q].
      * injection E as <-. constructor; sm; trivial. apply (Q_read _ row); sm; trivial; congruence.
      * destruct B as [B|(B & _)]; rewrite (proj1 B) in E; injection E as <-; constructor; sm; trivial.
        -- apply (Q_store _ row); sm; trivial.
        -- apply (Q_load _ row); sm; trivial.
  - rewrite Hc in H. injection H as -> ->. cbn [exec] in E. rewrite Er in E. destruct (buffer_row s row A Cu B) as (rw & G & _). unfold GetData in E. rewrite G in E.
    injection E as <-. constructor; sm; trivial. apply Q_idle; sm; trivial; now left.
  - rewrite Hc in H. injection H as -> ->. cbn [exec] in E. destruct (_ || cached (cache s) (cur s)) eqn:Ca; injection E as <-; unfold notify; sm; constructor; sm; trivial.
    + apply (Q_store _ row); sm; trivial.
    + apply orb_false_iff in Ca. destruct Ca as (_ & Ca). apply (Q_load _ row); sm; trivial.
      * split; [apply Ib|]. sm. rewrite cached_insert by trivial. apply N.eqb_neq in Nc. rewrite Nc. apply Ib.
      * split; [reflexivity|]. sm. now apply late_store.
  - rewrite Hc in H. injection H as -> ->. cbn [exec] in E. injection E as <-. unfold load. sm. destruct Ib as (Lb & Ca). rewrite Ca. cbv iota. sm.
    apply N.ltb_lt in Lb. rewrite Lb. destruct B as (B1 & B2). destruct (HX row A) as (x & rw & Hx & _). rewrite <- B2 in Hx.
    destruct (i_disk _ _ I _ _ Hx Ca) as (y & Fy & Ey). rewrite Er, En in Ey. rewrite Fy. constructor; sm; trivial. rewrite B2 in Hx.
    apply (Q_read _ row); sm; trivial. right. split; [now split|]. unfold loaded. sm. split; trivial. exists x, y. repeat split; trivial. now rewrite Er, En.
  - rewrite Hc in H. injection H as -> ->. cbn [exec] in E. destruct (_ || _); injection E as <-; unfold notify; sm; constructor; sm; trivial.
    + apply Q_cstore; sm; trivial.
    + apply Q_closed; sm; trivial; [now left|]. split; [reflexivity|]. sm. now apply late_store.
  - destruct H as [H|[H|H]]; rewrite Hc in H; try discriminate; injection H as -> ->; cbn [exec] in E.
    + pose proof (i_phase _ _ I) as P. rewrite Hc in P.
      destruct (workers s) eqn:Ew.
      * destruct (cache s) eqn:Ec; injection E as <-; constructor; sm; trivial; try (apply Q_closed; sm; trivial; now (left + right; right)).
        inversion P; subst; try (match goal with H : maybe_store ?st ++ _ = _ |- _ => destruct st; discriminate end); exfalso; match goal with H : rpb s <> 0 -> workers s <> [] |- _ => apply H; congruence end.
      * destruct (cache s) eqn:Ec; injection E as <-; unfold notify; constructor; sm; trivial; (apply Q_closed; sm; trivial); [right; now left|now left].
    + destruct (forallb _ _); [|discriminate]. injection E as <-. constructor; sm; trivial. apply Q_closed; sm; trivial. right. now right.
Qed.

Lemma qcode_last (s : state e) : qcode s -> last s = last s0 \/ last s = X.
Proof.
  assert (B2 : buf2 s -> last s = last s0 \/ last s = X) by (intros [(_ & _ & _ & H)|((_ & H) & _)]; auto).
  intros [H C B|row A H C B|row A H Cu C B|row A H Ib Nc C B|row A H Ib C B|H C B|H C B]; auto; unfold early, late in B; tauto.
Qed.

(** the blocks that wait can be encoded *)
Lemma session_picked (s : state e) b x : inv (fun _ => None) s -> qinv s -> In (WPicked b x) (workers s) -> last s0 b = Some x \/ X b = Some x.
Proof.
  intros I Q Hin. pose proof (i_last _ _ I _ _ _ (i_picked _ _ I _ _ Hin)) as Hl. destruct (qcode_last s (q_code _ Q)) as [El|El]; rewrite El in Hl; auto.
Qed.

Lemma qinv_worker (s s' : state e) y k w w' : inv (fun _ => None) s -> qinv s -> nth_error (workers s) k = Some w -> wexec y s w = Some (s', w') -> qinv (set_worker s' k w').
Proof.
  intros I Q Hw E. pose proof Q as [R Er En Mg H].
  destruct (worker_frame _ y s s' w w' k I Hw E) as (F1 & F2 & F3 & F4 & F5 & F6 & F7 & F8 & F9 & F10 & F11 & F12 & F13); trivial.
  { intros b x Hin. rewrite Er, En. apply HE. now apply (session_picked s). }
  constructor; [trivial|congruence..|]. apply (qcode_ext s); trivial.
Qed.

Lemma qinv_step (s s' : state e) : inv (fun _ => None) s -> qinv s -> step s s' -> code s <> [] \/ code s' = [] -> qinv s'.
Proof.
  intros I U St Nc. inversion St as [? Si|a R1 C1 C2 A|j Hj|Hj|j H1 H2 H3]; subst.
  - inversion Si as [junk i c ? _ Hc Mw E J|j w y s1 w1 _ Hw Hy E]; subst; [eapply qinv_main; eauto|eapply qinv_worker; eauto].
  - destruct Nc as [Nc|Nc]; [congruence|]. destruct a; discriminate.
  - destruct U. constructor; sm; trivial. apply (qcode_ext s); trivial; [apply N.le_refl|now apply framed_same].
  - destruct U. constructor; sm; trivial. apply (qcode_ext s); trivial; [apply N.le_refl|now apply framed_same].
  - destruct U. constructor; sm; trivial. apply (qcode_ext s); trivial. now apply framed_same.
Qed.

Notation read := (reading (e := e) ok s0).

Lemma session_reach (s : state e) : read s -> reach (fresh e) s.
Proof.
  intros H. induction H as [|s row H IH R C1 C2 L O|s H IH R C1 C2|s s' H IH St Nc]; [trivial|..]; eapply reach_step; eauto; now constructor.
Qed.

Lemma session_inv (s : state e) : read s -> status s = Running -> inv (fun _ => None) s.
Proof. intros H R. apply (inv_reach (fresh e)); trivial; [constructor|now apply session_reach]. Qed.

Lemma idle_buf (s : state e) : qinv s -> code s = [] -> closed s = false -> buf2 s.
Proof.
  intros [R Er En Mg H] C1 C2. destruct H as [H C B|row A H C B|row A H Cu C B|row A H Ib Nc C B|row A H Ib C B|H C B|H C B]; trivial; try congruence.
Qed.

Lemma qinv_reading (s : state e) : read s -> qinv s.
Proof.
  intros H. induction H as [|s row H IH R C1 C2 L O|s H IH R C1 C2|s s' H IH St Nc].
  - constructor; trivial.
    + apply (mgr_idle (fresh e)); trivial. constructor.
    + apply Q_idle; trivial; [now left|]. left. now repeat split.
  - pose proof (idle_buf s IH C1 C2) as B. destruct IH as [_ Er En Mg _]. constructor; sm; trivial. apply (Q_get _ row); sm; trivial; now left.
  - pose proof (idle_buf s IH C1 C2) as B. destruct IH as [_ Er En Mg _]. constructor; sm; trivial. apply Q_idle; sm; trivial; now right.
  - apply (qinv_step s); trivial. apply session_inv; trivial. apply IH.
Qed.

(** ** Results *)
(** an answer: zeros for a block that was not in the file, or the row *)
Lemma session_answers (s s' : state e) row a : read s -> istep s s' -> outs s' = (row, a) :: outs s ->
  row < K /\
  ((a = AZero /\ nblk s <= row / n) \/
   exists v, a = AVals v /\ (v = firstn (nSamp e) (D row) \/
    exists x y, X (row / n) = Some x /\ file s (row / n) = Some y /\ enc e n na x y /\ nth_error (dec e n na (row / n) y) (N.to_nat (row mod n)) = Some v)).
Proof.
  intros H St Ho. pose proof (qinv_reading s H) as [R Er En Mg U].
  assert (Nn : forall (x : N * answer (data e)) l, l <> x :: l) by (intros x l Q; apply (f_equal (@length _)) in Q; cbn in Q; lia).
  inversion St as [junk i c ? _ Hc Mw E J|j w y s1 w1 _ Hw Hy E]; subst.
  2:{ exfalso. apply (Nn (row, a) (outs s)). rewrite <- Ho. destruct w as [| | |b' x|b'|]; cbn [wexec] in E; unfold pick in E;
      repeat match type of E with
      | (if ?b then _ else _) = Some _ => destruct b
      | match match ?b with _ => _ end with _ => _ end = Some _ => destruct b
      | match ?b with _ => _ end = Some _ => destruct b
      end; try discriminate; injection E as <- <-; reflexivity. }
  destruct U as [H' C B|r A H' C B|r A H' Cu C B|r A H' Ib Nc C B|r A H' Ib C B|H' C B|H' C B].
  - exfalso. destruct H' as [H'|H']; rewrite Hc in H'; [discriminate|]. injection H' as -> ->. cbn [exec] in E. injection E as <-. now apply (Nn (row, a) (outs s)).
  - destruct H' as [H'|[(H' & Hb)|(H' & Ib)]]; rewrite Hc in H'; injection H' as -> ->; cbn [exec] in E.
    + destruct (N.eqb_spec (rpb s) 0) as [Z|_]; [congruence|]. rewrite Er in E. destruct (N.leb_spec (nblk s) (r / n)) as [Lb|Lb]; injection E as <-.
      * cbn in Ho. injection Ho as -> <-. split; trivial. left. now split.
      * exfalso. now apply (Nn (row, a) (outs s)).
    + exfalso. destruct (cached _ _); injection E as <-; now apply (Nn (row, a) (outs s)).
    + exfalso. destruct (_ =? _); injection E as <-; now apply (Nn (row, a) (outs s)).
  - rewrite Hc in H'. injection H' as -> ->. cbn [exec] in E. rewrite Er in E. destruct (buffer_row s r A Cu B) as (rw & G & Q). unfold GetData in E. rewrite G in E.
    injection E as <-. cbn in Ho. injection Ho as -> <-. split; trivial. right. exists (visibilities rw). split; trivial.
  - exfalso. rewrite Hc in H'. injection H' as -> ->. cbn [exec] in E. destruct (_ || _); injection E as <-; now apply (Nn (row, a) (outs s)).
  - exfalso. rewrite Hc in H'. injection H' as -> ->. cbn [exec] in E. injection E as <-. apply (Nn (row, a) (outs s)). rewrite <- Ho. unfold load.
    destruct (cached _ _); cbv zeta iota; (destruct (_ <? _); [|reflexivity]); (destruct (file _ _); [reflexivity|]); now destruct junk.
  - exfalso. rewrite Hc in H'. injection H' as -> ->. cbn [exec] in E. destruct (_ || _); injection E as <-; now apply (Nn (row, a) (outs s)).
  - exfalso. destruct H' as [H'|[H'|H']]; rewrite Hc in H'; try discriminate; injection H' as -> ->; cbn [exec] in E.
    + destruct (workers s), (cache s); injection E as <-; now apply (Nn (row, a) (outs s)).
    + destruct (forallb _ _); [|discriminate]. injection E as <-. now apply (Nn (row, a) (outs s)).
Qed.

(** when the column is closed, the file holds every block *)
Lemma session_blocks (s : state e) : read s -> closed s = true -> code s = [] -> forall b x, X b = Some x -> exists y, file s b = Some y /\ enc e n na x y.
Proof.
  intros H Cl C1 b x Hx. pose proof (qinv_reading s H) as [R Er En Mg U].
  destruct (on_disk (fresh e) s NT ltac:(constructor) (session_reach s H) R Cl C1) as (_ & _ & D1 & _). rewrite Er, En in D1. apply D1.
  destruct U as [H' C B|r A H' C B|r A H' Cu C B|r A H' Ib Nc C B|r A H' Ib C B|H' C B|H' C B]; try congruence. now rewrite (proj2 B).
Qed.
End session.

(** ** All rows of a new column were put *)
Section all_put.
Context {e : env} (o : Prop) (D : N -> list (data e)) (HD : forall r, (nSamp e <= length (D r))%nat) (NT : (nthreads e <> 0)%nat).

Lemma all_put K n na (s : state e) : in_order o D K s -> status s = Running -> closed s = false -> code s = [] -> first_block e n -> antenna_count e n na -> n < K ->
  among K K s -> (forall r, af e = true -> (fst (ants e r) < na)%nat /\ (snd (ants e r) < na)%nat) ->
  rpb s = n /\ nant s = na /\ changed s = true /\
  (forall b, b * n < K -> exists x, upd_map (last s) (cur s) (tb s) b = Some x /\ exact_block e D K n b x) /\
  (forall b x, last s b = Some x \/ upd_map (last s) (cur s) (tb s) b = Some x -> encodable e n na x = true /\ b * n < K).
Proof.
  intros H R Cl C Fn An L Am Af. destruct (block_size_known o D HD K n na s NT H R C Fn An) as [(X1 & X2)|(X1 & X2 & _)]; [exfalso; lia|]. split; trivial. split; trivial.
  assert (Zn : n <> 0) by (destruct Fn; lia).
  destruct (wholes_reach o D HD NT (fun _ _ => True) (fun _ => Logic.I) K s (fun _ _ => Logic.I) H R) as (Wt & W); [congruence|].
  destruct (ord_reach o D HD K s NT H R) as [(m & A1 & _)|[(n' & na' & m & B)|(_ & n' & na' & _ & _ & _ & B & _)]]; [congruence| |congruence].
  destruct B as (B0 & B1 & B2 & B3 & B4 & B5 & B6 & B7 & B8 & B9 & B10 & B).
  assert (En : n' = n) by congruence. rewrite En in *. clear En. assert (Ea : na' = na) by congruence. rewrite Ea in *. clear Ea.
  assert (K = m /\ changed s = true /\ cur s = (m - 1) / n) as (Em & Ch & Cu).
  { destruct B as [(_ & Ch & Cu & Hm & B)|[(_ & _ & _ & _ & [(B & _)|(B & _)])|[(B & _)|(_ & _ & _ & _ & _ & [(B & _)|(_ & [B|B])])]]]; try congruence; [|lia].
    destruct B as [(_ & B)|[(_ & [B|[B|[B|[B|B]]]])|[(_ & _ & B)|[(_ & _ & B)|[(_ & B)|(_ & [B|[B|B]])]]]]]; try congruence. now repeat split. }
  subst m. split; trivial. destruct (B10 Af) as (Ft & Fl). destruct (Am ltac:(congruence)) as (Am1 & Am2). rewrite X1 in *.
  assert (Lc : cur s * n < K) by (rewrite Cu; pose proof (N.mul_div_le (K - 1) n Zn); lia).
  split.
  - intros b Hb. unfold upd_map. destruct (N.eqb_spec b (cur s)) as [->|Nb].
    + exists (tb s). split; trivial. apply exact_from; trivial.
      * destruct Wt as (W1 & W2). split; [lia|]. split; [intros i row Hi; destruct (W2 i row Hi) as (W3 & W4 & _); now split|].
        intros r Hr Hd. destruct (B7 r Hr) as [(_ & _ & Q)|([Q|Q] & _)]; [exact Q|congruence|congruence].
      * destruct Am1 as [Q|Q]; [rewrite Q; cbn; lia|trivial].
    + destruct (B7 (b * n) Hb) as [(_ & Q & _)|(_ & x & Hx & _)]; rewrite N.div_mul in * by trivial; [congruence|]. exists x. split; trivial.
      apply exact_from; trivial; [|now apply (Am2 b x)]. destruct (W _ _ Hx) as ((W1 & W2) & _). split; [lia|]. split; [intros i row Hi; destruct (W2 i row Hi) as (W3 & W4 & _); now split|].
      intros r Hr Hd. destruct (B7 r Hr) as [(_ & Q & _)|(_ & x' & Hx' & Q)]; [congruence|]. rewrite Hd, Hx in Hx'. injection Hx' as <-. exact Q.
  - assert (Q1 : forall b x, last s b = Some x -> encodable e n na x = true /\ b * n < K) by (intros b x Hx; split; [now apply (Fl b)|apply B8; congruence]).
    intros b x [Hx|Hx]; [now apply Q1|]. revert Hx. unfold upd_map. destruct (N.eqb_spec b (cur s)) as [->|Nb]; [|now apply Q1]. intros [= <-]. split; trivial.
    unfold encodable. apply andb_true_intro. split; [apply N.leb_le; lia|]. apply forallb_forall. intros rw Hin. rewrite Forall_forall in Ft. destruct (Ft rw Hin) as (F1 & F2).
    rewrite F1, Nat.eqb_refl. cbn [andb]. destruct (af e); [|reflexivity]. cbn [negb orb]. destruct (F2 eq_refl) as (F3 & F4). apply andb_true_intro. split; now apply Nat.ltb_lt.
Qed.
End all_put.

(** ** All rows put have the same time *)
Lemma step_closed {e} (s s' : state e) : step s s' -> closed s = true -> closed s' = true.
Proof.
  intros St Cl. inversion St as [? Si|a R C C1 A|j Hj|Hj|j H1 H2 H3]; subst; try exact Cl.
  inversion Si as [junk i c ? R Hc Mw E J|j w y s1 w1 R Hw Hy E]; subst.
  - destruct i; cbn [exec] in E; unfold put_buffer, load, add_out in E;
      repeat match type of E with
      | Some _ = Some _ => injection E as <-
      | None = Some _ => discriminate E
      | context [match ?x with _ => _ end] => destruct x
      end; clear - Cl; repeat match goal with |- context [match ?x with _ => _ end] => destruct x end; sm; try exact Cl; reflexivity.
  - destruct w; cbn [wexec] in E; unfold pick, notify in E;
      repeat match type of E with
      | Some _ = Some _ => injection E as <- <-
      | None = Some _ => discriminate E
      | context [isWriteItemAvailable ?x] => destruct (isWriteItemAvailable x) as [(? & ?)|]
      | context [match ?x with _ => _ end] => destruct x
      end; clear - Cl; unfold set_worker; sm; exact Cl.
Qed.

Lemma single_block_zeros {e} (D : N -> list (data e)) (HD : forall r, (nSamp e <= length (D r))%nat) k (s0 : state e) ok s : (nthreads e <> 0)%nat -> in_order False D k s0 ->
  (forall r, r < k -> same_keys e r 0) -> status s0 = Running -> code s0 = [] -> closed s0 = false -> reading ok s0 s -> closed s = false ->
  status s = Running /\ exists l, outs s = l ++ outs s0 /\ Forall (fun a => snd a = AZero) l.
Proof.
  intros NT Or Sk R0 C0 Cl0 Rd.
  assert (rpb s0 = 0 /\ workers s0 = []) as (Z0 & W0).
  { destruct (ord_reach False D HD k s0 NT Or R0) as [(m & A1 & A2 & _)|[(n' & na' & m & B)|([] & _)]]; [now split|].
    destruct B as ([B0|([] & _)] & (_ & _ & B1) & _). destruct B1. now apply Sk. }
  enough (Q : closed s = false -> status s = Running /\ rpb s = 0 /\ workers s = [] /\ (code s = [] \/ code s = [IShutdown] \/ exists r, code s = [IGet r]) /\
    exists l, outs s = l ++ outs s0 /\ Forall (fun a => snd a = AZero) l) by (intros Cl; destruct (Q Cl) as (Q1 & _ & _ & _ & Q2); now split).
  induction Rd as [|s r Rd IH R C Cl Lr Okr|s Rd IH R C Cl|s s' Rd IH St Nc]; intros Cl'.
  - repeat split; trivial; [now left|]. exists []. split; [reflexivity|constructor].
  - destruct (IH Cl) as (I1 & I2 & I3 & _ & I4). sm. cbn [call_code]. repeat split; trivial. right. right. now exists r.
  - destruct (IH Cl) as (I1 & I2 & I3 & _ & I4). sm. cbn [call_code]. repeat split; trivial. right. now left.
  - assert (Cl : closed s = false) by (destruct (closed s) eqn:Q; [rewrite (step_closed _ _ St Q) in Cl'; discriminate|reflexivity]).
    destruct (IH Cl) as (I1 & I2 & I3 & I4 & l & I5 & I6).
    inversion St as [? Si|a R C C1 A|j Hj|Hj|j H1 H2 H3]; subst.
    + inversion Si as [junk i c ? R Hc Mw E J|j w y s1 w1 R Hw Hy E]; subst; [|rewrite I3 in Hw; destruct j; discriminate].
      destruct I4 as [I4|[I4|(r & I4)]]; rewrite Hc in I4; [discriminate|..]; injection I4 as -> ->; cbn [exec] in E.
      * injection E as <-. sm. discriminate.
      * rewrite I2 in E. cbn in E. injection E as <-. unfold add_out. sm. repeat split; trivial; [now left|]. exists ((r, AZero) :: l). split; [cbn; now rewrite I5|]. constructor; trivial.
    + destruct Nc as [Nc|Nc]; [congruence|]. destruct a; discriminate.
    + rewrite I3 in Hj. destruct j; discriminate.
    + sm. repeat split; trivial. now exists l.
    + sm. repeat split; trivial. now exists l.
Qed.

(** ** Rows of a block that is not in the file *)
Lemma step_early {e} (s s' : state e) B n : step s s' -> code s <> [] \/ code s' = [] -> n <> 0 -> rpb s = n -> nblk s <= B -> closed s' = false ->
  code s = [] \/ code s = [IShutdown] \/ (exists r, r / n = B /\ code s = [IGet r]) ->
  last s' = last s /\ (code s' = code s \/ code s' = []) /\ (outs s' = outs s \/ exists r, outs s' = (r, AZero) :: outs s).
Proof.
  intros St Nd Zn Er Bd Cl C. inversion St as [? Si|a R C0 C1 A|j Hj|Hj|j H1 H2 H3]; subst; try (split; [reflexivity|split; now left]).
  - inversion Si as [junk i c ? R Hc Mw E J|j w y s1 w1 R Hw Hy E]; subst.
    + destruct C as [C|[C|(r & Hr & C)]]; rewrite Hc in C; [discriminate|..]; injection C as -> ->; cbn [exec] in E.
      * injection E as <-. sm. discriminate.
      * destruct (N.eqb_spec (rpb s) 0) as [Z|_]; [easy|]. subst B. destruct (N.leb_spec (nblk s) (r / rpb s)) as [_|Q]; [|lia].
        injection E as <-. unfold add_out. sm. split; [reflexivity|]. split; [now right|]. right. now exists r.
    + clear - E. destruct w; cbn [wexec] in E; unfold pick, notify in E;
      repeat match type of E with
      | Some _ = Some _ => injection E as <- <-
      | None = Some _ => discriminate E
      | context [isWriteItemAvailable ?x] => destruct (isWriteItemAvailable x) as [(? & ?)|]
      | context [match ?x with _ => _ end] => destruct x
      end; unfold set_worker; sm; (split; [reflexivity|split; now left]).
  - exfalso. destruct Nd as [Nd|Nd]; [congruence|]. destruct a; discriminate.
Qed.
