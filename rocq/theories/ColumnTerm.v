(** Calls on the threaded column terminate. *)
From Coq Require Import Wellfounded Relation_Operators.
From Verif Require Import Base BaseLemmas TimeBlockBuffer TbbSpec TbbProofs Column ColumnSpec ColumnProofs ColumnInv ColumnReach.
Local Open Scope nat_scope.
Local Arguments busy : simpl never. Local Arguments upd : simpl never. Local Arguments cached : simpl never.
Local Arguments erase : simpl never. Local Arguments markWritten : simpl never. Local Arguments maxCache : simpl never.

Definition sum {A} (f : A -> nat) (l : list A) : nat := fold_right (fun a n => f a + n) 0 l.

Local Arguments sum : simpl never.

Lemma sum_app {A} (f : A -> nat) l l' : sum f (l ++ l') = sum f l + sum f l'.
Proof. unfold sum. induction l as [|a l IH]; cbn [app fold_right]; [trivial|]. rewrite IH. lia. Qed.

Lemma sum_cons {A} (f : A -> nat) a l : sum f (a :: l) = f a + sum f l.
Proof. reflexivity. Qed.

Definition w_item {A} (p : N * (tbb A * bool)) : nat := if snd (snd p) then 0 else 3.
Definition w_work {A} (w : wpc A) : nat := match w with WPicked _ _ => 2 | WWritten _ => 1 | _ => 0 end.
Definition w_instr {A} (i : instr A) : nat :=
  match i with
  | IPut _ _ => 20 | IPutRow _ _ => 10 | ISet _ _ _ => 1 | ILoad _ => 1 | IStore => 5 | IGet _ => 12 | IWaitNot _ => 1
  | IGetRow _ => 8 | IRead _ => 1 | ISetRpb _ _ => 1 | IStop => 2 | IJoin => 1 | IStart => 1 | ILock => 1 | IReset => 1
  | IPrepared => 5 | IUnlock => 1 | IShutdown => 8
  end.
Definition w_ready {A} (w : wpc A) : nat := match w with WTop | WWoken => 1 | _ => 0 end.

Definition phi {e} (s : state e) : nat :=
  (match status s with Running => 1 | _ => 0 end) + sum w_item (cache s) + sum w_work (workers s) + sum w_instr (code s).
Definition ready {e} (s : state e) : nat := sum w_ready (workers s) + (if mwait s then 0 else 1).

Definition smaller {e} (s' s : state e) : Prop := phi s' < phi s \/ (phi s' = phi s /\ ready s' < ready s).

Lemma wake_work {A} (ws : list (wpc A)) : sum w_work (map wake ws) = sum w_work ws.
Proof. unfold sum. induction ws as [|w ws IH]; trivial. cbn [map fold_right]. rewrite IH. now destruct w. Qed.

Lemma sum_upd {A} (f : A -> nat) l k x y : nth_error l k = Some x -> sum f (upd l k y) + f x = sum f l + f y.
Proof.
  intros H. destruct (upd_split l k x y H) as (l1 & l2 & -> & ->). rewrite !sum_app, !sum_cons. lia.
Qed.

Lemma sum_insert {A} k (v : tbb A * bool) c : sum w_item (insert k v c) <= sum w_item c + w_item (k, v).
Proof.
  induction c as [|(k' & v') c IH]; cbn [insert].
  - rewrite sum_cons. lia.
  - destruct (k <? k')%N; [rewrite !sum_cons; lia|]. destruct (k =? k')%N; rewrite !sum_cons; lia.
Qed.

Lemma sum_erase {A} (c : list (N * (tbb A * bool))) b : sum w_item (erase c b) <= sum w_item c.
Proof.
  unfold erase. induction c as [|p c IH]; cbn [filter]; trivial. destruct (negb _); rewrite ?sum_cons; lia.
Qed.

Lemma sum_mark_le {A} (c : list (N * (tbb A * bool))) b : sum w_item (markWritten c b) <= sum w_item c.
Proof.
  unfold markWritten. induction c as [|(k & (x & w)) c IH]; trivial. cbn [map]. rewrite !sum_cons. cbn [fst snd].
  destruct (k =? b)%N; unfold w_item at 1 3; cbn [snd]; destruct w; lia.
Qed.

Lemma sum_mark {A} (c : list (N * (tbb A * bool))) b x : In (b, (x, false)) c -> sum w_item (markWritten c b) + 3 <= sum w_item c.
Proof.
  induction c as [|(k & (x' & w)) c IH]; [easy|]. intros H. unfold markWritten in *. cbn [map]. rewrite !sum_cons.
  destruct H as [H|H].
  - injection H as -> -> ->. cbn [fst snd]. rewrite N.eqb_refl. pose proof (sum_mark_le c b) as M. unfold markWritten in M.
    unfold w_item at 1 3. cbn [snd]. lia.
  - apply IH in H. cbn [fst snd]. destruct (k =? b)%N; unfold w_item at 1 3; cbn [snd]; destruct w; lia.
Qed.

Lemma pick_smaller {e} (s s' : state e) k w w' : nth_error (workers s) k = Some w -> w_work w = 0 ->
  pick s = Some (s', w') -> phi (set_worker s' k w') < phi s.
Proof.
  unfold pick. intros H W E. destruct (isWriteItemAvailable (cache s)) as [(b & x)|] eqn:Av; [|discriminate].
  injection E as <- <-. apply avail_some in Av. apply sum_mark in Av. unfold phi. cbn.
  pose proof (sum_upd w_work (workers s) k w (WPicked b x) H) as U. cbn in U. lia.
Qed.

Lemma istep_smaller {e} (s s' : state e) : istep s s' -> smaller s' s.
Proof.
  intros [junk i c s1 R Hc Mw E|k w y s1 w1 R H _ E]; unfold smaller.
  - assert (P : forall (t : state e) r row d, status t = Running -> phi (put_buffer t r row d) <= phi t).
    { intros t r row d Rt. unfold put_buffer. destruct (SetData _ _ _ _ _ _); unfold phi; cbn; rewrite ?Rt; lia. }
    assert (PC : forall cc, phi (set_code s cc) + sum w_instr (i :: c) = phi s + sum w_instr cc).
    { intros cc. unfold phi. cbn. rewrite Hc. lia. }
    assert (WS : forall b, sum (@w_instr (data e)) (if b : bool then [IStore] else []) <= 5) by (intros []; unfold sum; cbn; lia).
    destruct i; cbn [exec] in E; rewrite ?sum_cons in PC; cbn [w_instr] in PC.
    + destruct (rpb s =? 0)%N; [destruct (Empty (tb s)); [|destruct (keys_differ e row (keyrow s))]|]; injection E as <-; left.
      * eapply Nat.le_lt_trans; [apply P; trivial|]. specialize (PC c). unfold phi in *. cbn in *. lia.
      * specialize (PC (ISetRpb row (MaxAntennaIndex (tb s) + 1) :: IStop :: IStart :: IPutRow row d :: c)). rewrite !sum_cons in PC. cbn [w_instr] in PC. lia.
      * eapply Nat.le_lt_trans; [apply P; trivial|]. specialize (PC c). lia.
      * specialize (PC (IPutRow row d :: c)). rewrite !sum_cons in PC. cbn [w_instr] in PC. lia.
    + destruct (rpb s =? 0)%N; [injection E as <-; left; eapply Nat.le_lt_trans; [apply P; trivial|]; specialize (PC c); lia|].
      destruct (_ =? _)%N; injection E as <-; left.
      * specialize (PC (ISet (row mod rpb s) row d :: c)). rewrite !sum_cons in PC. cbn [w_instr] in PC. lia.
      * specialize (PC ((if changed s then [IStore] else []) ++ ILoad (row / rpb s) :: ISet (row mod rpb s) row d :: c)).
        rewrite sum_app, !sum_cons in PC. specialize (WS (changed s)). cbn [w_instr] in PC. lia.
    + injection E as <-. left. eapply Nat.le_lt_trans; [apply P; trivial|]. specialize (PC c). lia.
    + injection E as <-. left. specialize (PC c). eapply Nat.le_lt_trans with (m := phi (set_code s c)); [|lia].
      unfold load. destruct (cached _ _); cbn; destruct (_ <? _)%N; [destruct (file s b); [|destruct junk]| |destruct (file s b); [|destruct junk]|]; unfold phi; cbn; lia.
    + destruct (_ || _).
      * injection E as <-. right. unfold phi, ready. cbn. rewrite Mw. lia.
      * injection E as <-. left. unfold phi. cbn. rewrite Hc, wake_work. pose proof (sum_insert (cur s) (tb s, false) (cache s)) as X.
        cbn in X. rewrite sum_cons. cbn [w_instr]. lia.
    + destruct (rpb s =? 0)%N; [injection E as <-; left; specialize (PC c); unfold phi in *; cbn in *; lia|].
      destruct (_ <=? _)%N; injection E as <-; left.
      * specialize (PC c); unfold phi in *; cbn in *; lia.
      * specialize (PC (IWaitNot (row / rpb s) :: IGetRow row :: c)). rewrite !sum_cons in PC. cbn [w_instr] in PC. lia.
    + destruct (cached _ _); injection E as <-.
      * right. unfold phi, ready. cbn. rewrite Mw. lia.
      * left. specialize (PC c). lia.
    + destruct (_ =? _)%N; injection E as <-; left.
      * specialize (PC (IRead row :: c)). rewrite !sum_cons in PC. cbn [w_instr] in PC. lia.
      * specialize (PC ((if changed s then [IStore] else []) ++ ILoad (row / rpb s) :: IRead row :: c)).
        rewrite sum_app, !sum_cons in PC. specialize (WS (changed s)). cbn [w_instr] in PC. lia.
    + specialize (PC c). destruct (GetData _ _); injection E as <-; left; unfold phi in *; cbn in *; lia.
    + injection E as <-. left. specialize (PC c). destruct (_ && _); unfold phi in *; cbn in *; lia.
    + specialize (PC c). destruct (workers s) as [|w ws] eqn:Ew; destruct (cache s) as [|p ps] eqn:Ec; injection E as <-.
      * left. lia.
      * left. unfold phi in *. cbn in *. lia.
      * left. unfold phi. cbn. rewrite Hc, Ew, Ec. change (wake w :: map wake ws) with (map wake (w :: ws)). rewrite wake_work.
        rewrite !sum_cons. cbn [w_instr]. rewrite R. cbn. lia.
      * right. unfold phi, ready. cbn. rewrite Mw. lia.
    + specialize (PC c). destruct (forallb _ _); [|discriminate]. injection E as <-. left. unfold phi in *. cbn in *. change (sum (@w_work (data e)) []) with 0. lia.
    + specialize (PC c). injection E as <-. left. unfold phi in *. cbn in *. rewrite sum_app.
      assert (Z : sum (@w_work (data e)) (repeat WTop (nthreads e)) = 0) by (clear; induction (nthreads e); trivial). lia.
    + specialize (PC c). injection E as <-. left. unfold phi in *. cbn in *. lia.
    + specialize (PC c). injection E as <-. left. destruct (changed s); unfold phi in *; cbn in *; lia.
    + destruct (_ =? _)%N; injection E as <-; left; [specialize (PC c); lia|].
      specialize (PC (IStop :: IStart :: c)). rewrite !sum_cons in PC. cbn [w_instr] in PC. lia.
    + specialize (PC c). injection E as <-. left. unfold phi in *. cbn in *. lia.
    + injection E as <-. left. specialize (PC ((if changed s then [IStore] else []) ++ IStop :: c)).
      rewrite sum_app, !sum_cons in PC. specialize (WS (changed s)). cbn [w_instr] in PC.
      unfold phi in *. cbn in *. lia.
  - assert (Wt : forall w', w_work w = 0 -> w_work w' = 0 -> w_ready w = 1 -> w_ready w' = 0 ->
      phi (set_worker s k w') = phi s /\ ready (set_worker s k w') < ready s).
    { intros w' A1 A2 A3 A4. unfold phi, ready. cbn. pose proof (sum_upd w_work _ _ _ w' H). pose proof (sum_upd w_ready _ _ _ w' H). lia. }
    destruct w as [| | |b x|b|]; cbn [wexec] in E; try discriminate.
    + destruct (stopF s); [injection E as <- <-; right; now apply Wt|].
      destruct (pick s) as [(s2 & w2)|] eqn:P; injection E as <- <-; [left; eapply pick_smaller; eauto|right; now apply Wt].
    + destruct (pick s) as [(s2 & w2)|] eqn:P; injection E as <- <-; [left; eapply pick_smaller; eauto|right].
      destruct (stopF s); now apply Wt.
    + destruct (encodable _ _ _ _); [destruct (mgr s); [discriminate|]|]; injection E as <- <-; left; unfold phi; cbn.
      * pose proof (sum_upd w_work _ _ _ (WWritten b) H) as U. cbn in U. lia.
      * pose proof (sum_upd w_work _ _ _ WDone H) as U. cbn in U. rewrite R. lia.
    + injection E as <- <-. left. unfold phi. cbn.
      assert (H' : nth_error (map wake (workers s)) k = Some (WWritten b)) by (rewrite nth_error_map, H; reflexivity).
      pose proof (sum_upd w_work _ _ _ WTop H') as U. rewrite wake_work in U. cbn in U. pose proof (sum_erase (cache s) b). lia.
Qed.

Lemma smaller_wf {e} : well_founded (@smaller e).
Proof.
  assert (X : forall n m (s : state e), phi s <= n -> ready s <= m -> Acc smaller s).
  { induction n as [n IHn] using lt_wf_ind. induction m as [m IHm] using lt_wf_ind. intros s P Q. constructor. intros s' [H|(H1 & H2)].
    - apply (IHn (phi s') ltac:(lia) (ready s')); lia.
    - apply (IHm (ready s') ltac:(lia)); lia. }
  intros s. now apply (X (phi s) (ready s)).
Qed.

Lemma istep_wf {e} : well_founded (fun s' s : state e => istep s s').
Proof.
  intros s. induction (smaller_wf s) as [s _ IH]. constructor. intros s' H. apply IH. now apply istep_smaller.
Qed.

(** a call does not take the manager mutex while blocks are cached *)
Definition prep_only {A} (i : instr A) : Prop :=
  match i with ILock | IStop | IReset | IPrepared | IUnlock | IJoin | IStart => True | _ => False end.
Definition can_finish {e} (s : state e) : Prop :=
  (mgr s = false /\ ~ In ILock (code s)) \/ (cache s = [] /\ Forall prep_only (code s)).

Lemma can_finish_step {e} (s s' : state e) : can_finish s -> istep s s' -> can_finish s'.
Proof.
  intros [(M & L)|(C & F)] [junk i c s1 R Hc Mw E|k w y s1 w1 R H _ E].
  - left. rewrite Hc in L.
    assert (Lc : ~ In ILock c) by (intros Z; apply L; now right).
    assert (P : forall (t : state e) r row d, mgr (put_buffer t r row d) = mgr t /\ code (put_buffer t r row d) = code t).
    { intros. unfold put_buffer. destruct (SetData _ _ _ _ _ _); auto. }
    assert (Ld : forall (t : state e) b, mgr (load junk t b) = mgr t /\ code (load junk t b) = code t).
    { intros t b. unfold load. destruct (cached _ _); cbn; destruct (_ <? _)%N; [destruct (file t b); [|destruct junk]| |destruct (file t b); [|destruct junk]|]; auto. }
    destruct i; cbn [exec] in E;
      repeat match type of E with
      | (if ?b then _ else _) = Some _ => destruct b
      | match ?b with _ => _ end = Some _ => destruct b eqn:?
      end; try discriminate; injection E as <-;
      rewrite ?(proj1 (P _ _ _ _)), ?(proj2 (P _ _ _ _)), ?(proj1 (Ld _ _)), ?(proj2 (Ld _ _));
      try (destruct (_ && _)); try (destruct (changed s)); try (destruct (rpb s =? 0)%N);
      cbn; rewrite ?Hc; split; trivial; cbn; try tauto; try (intuition congruence).
    all: exfalso; apply L; now left.
  - left. destruct w as [| | |b x|b|]; cbn [wexec] in E; unfold pick in E; rewrite ?M in E;
      repeat match type of E with
      | (if ?b then _ else _) = Some _ => destruct b
      | match match ?b with _ => _ end with _ => _ end = Some _ => destruct b
      | match ?b with _ => _ end = Some _ => destruct b
      end; try discriminate; injection E as <- <-; cbn; now split.
  - right. rewrite Hc in F. inversion F as [|? ? F1 F2]; subst. destruct i; cbn in F1; try easy; cbn [exec] in E; rewrite ?C in E;
      repeat match type of E with
      | (if ?b then _ else _) = Some _ => destruct b
      | match ?b with _ => _ end = Some _ => destruct b
      end; try discriminate; injection E as <-;
      try (destruct (_ && _)); try (destruct (changed s)); try (destruct (rpb s =? 0)%N); cbn; rewrite ?C; split; trivial; repeat constructor; trivial.
  - right. destruct w as [| | |b x|b|]; cbn [wexec] in E; unfold pick in E; rewrite ?C in E; cbn [isWriteItemAvailable] in E;
      repeat match type of E with
      | (if ?b then _ else _) = Some _ => destruct b
      | match ?b with _ => _ end = Some _ => destruct b
      end; try discriminate; injection E as <- <-; cbn; rewrite ?C; now split.
Qed.

Lemma reach_trans {e} (s0 s1 s2 : state e) : reach s0 s1 -> reach s1 s2 -> reach s0 s2.
Proof. intros H1 H2. induction H2; trivial. eapply reach_step; eauto. Qed.

Lemma call_finishes_if {e} (s0 s : state e) (P : state e -> Prop) : (nthreads e <> 0) -> starts s0 -> inhabited (bytes e) ->
  (forall s s', P s -> code s <> [] -> istep s s' -> P s') -> (forall s, P s -> status s = Running -> can_encode s) ->
  P s -> reach s0 s -> can_finish s -> finishes s.
Proof.
  intros NT S0 Inh Pi Pe. revert s.
  assert (X : forall s, Acc (fun s' s : state e => istep s s') s -> P s -> reach s0 s -> can_finish s -> finishes s).
  { intros s A. induction A as [s _ IH]. intros Ps H K. destruct (code s) as [|i c] eqn:Ec; [now apply fin_now; left|].
    destruct (status s) eqn:R; [|apply fin_now; right; congruence..].
    apply fin_step.
    - apply (progress_at s0); trivial; [now apply Pe|congruence|]. destruct K as [(K & _)|(K & _)]; auto.
    - intros s' St. apply IH; trivial; [eapply Pi; eauto; congruence|eapply reach_step; [exact H|now constructor]|]. eapply can_finish_step; eauto. }
  intros s. apply X. apply istep_wf.
Qed.

Lemma call_finishes {e} (s0 s : state e) : (nthreads e <> 0) -> starts s0 ->
  (forall rp na x, encodable e rp na x = true -> exists y, enc e rp na x y) -> inhabited (bytes e) ->
  reach s0 s -> can_finish s -> finishes s.
Proof. intros NT S0 En Inh. apply (call_finishes_if s0 s (fun _ => True)); trivial. intros t _ _ b x _. apply En. Qed.

Lemma mgr_idle {e} (s0 s : state e) : (nthreads e <> 0) -> starts s0 -> reach s0 s -> status s = Running -> code s = [] -> mgr s = false.
Proof.
  intros NT S0 H R C0. pose proof (inv_reach s0 s NT S0 H R) as I. pose proof (i_phase _ _ I) as P. rewrite C0 in P.
  inversion P; subst; try (destruct (changed s); discriminate); try congruence. match goal with B : base s |- _ => apply B end.
Qed.

(** every call other than adding a column ends; adding a column does if nothing is cached *)
Lemma calls_finish {e} (s0 s : state e) a : (nthreads e <> 0) -> starts s0 ->
  (forall rp na x, encodable e rp na x = true -> exists y, enc e rp na x y) -> inhabited (bytes e) ->
  reach s0 s -> status s = Running -> code s = [] -> closed s = false -> call_ok s a ->
  (a = AddColumn -> cache s = []) -> finishes (set_code s (call_code a)).
Proof.
  intros NT S0 En Inh H R C0 C1 A Ad. apply (call_finishes s0); trivial.
  - eapply reach_step; [exact H|]. now constructor.
  - assert (M : mgr s = false).
    { pose proof (inv_reach s0 s NT S0 H R) as I. pose proof (i_phase _ _ I) as P. rewrite C0 in P.
      inversion P; subst; try (destruct (changed s); discriminate); try congruence.
      match goal with B : base s |- _ => apply B end. }
    destruct a; cbn; try (left; split; cbn; trivial; intuition discriminate).
    right. cbn. split; [now apply Ad|]. repeat constructor.
Qed.
