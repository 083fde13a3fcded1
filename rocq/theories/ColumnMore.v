(** More about the threaded column: what can change, how it can go wrong, and runs of a small column. *)
From Verif Require Import Base BaseLemmas TimeBlockBuffer TbbSpec TbbProofs Column ColumnSpec ColumnProofs ColumnInv ColumnReach ColumnTerm ColumnData ColumnOrder.
Local Open Scope N_scope.

(** * What changes *)
(** the contents of a row change only when a put of that row is executed *)
Lemma val_changes {e} (s s' : state e) row : step s s' -> val s' row <> val s row ->
  exists d c, val s' row = Some (firstn (nSamp e) d) /\
    (code s = IPut row d :: c \/ code s = IPutRow row d :: c \/ exists r, code s = ISet r row d :: c).
Proof.
  intros St V. inversion St as [? S|a R1 C0 C1 A|j Hj|Hj|j H1 H2 H3]; subst; try (cbn in V; now contradict V).
  inversion S as [junk i c ? R Hc Mw E J|j w y s1 w1 R Hw Hy E]; subst.
  - assert (Pb : forall (t : state e) r row' d, val t = val s -> val (put_buffer t r row' d) row <> val s row ->
      row' = row /\ val (put_buffer t r row' d) row = Some (firstn (nSamp e) d)).
    { intros t r row' d Vt. unfold put_buffer. destruct (SetData _ _ _ _ _ _); cbn [val set_val set_buf set_status]; rewrite ?Vt; try congruence.
      unfold upd_map. destruct (N.eqb_spec row row'); [auto|congruence]. }
    assert (Ld : forall b, val (load junk (set_code s c) b) = val s).
    { intros b. unfold load. destruct (cached _ _); sm; destruct (N.ltb_spec b (nblk s)); [destruct (file s b); [|destruct junk]| |destruct (file s b); [|destruct junk]|]; sm; try congruence; auto. }
    destruct i; cbn [exec] in E;
      repeat match type of E with
      | (if ?b then _ else _) = Some _ => destruct b eqn:?
      | match ?b with _ => _ end = Some _ => destruct b eqn:?
      end; try discriminate; injection E as <-; rewrite ?Ld in V;
      repeat match type of V with val (if ?b then _ else _) _ <> _ => destruct b end; try (cbn in V; now contradict V).
    all: apply Pb in V; [|reflexivity]; destruct V as (-> & V); exists d, c; split; [exact V|]; eauto.
  - exfalso. apply V. destruct w as [| | |b x|b|]; cbn [wexec] in E; unfold pick in E;
      repeat match type of E with
      | (if ?b then _ else _) = Some _ => destruct b
      | match match ?b with _ => _ end with _ => _ end = Some _ => destruct b
      | match ?b with _ => _ end = Some _ => destruct b
      end; try discriminate; injection E as <- <-; reflexivity.
Qed.

(** how faults arise *)
Lemma fault_causes {e} (s0 s s' : state e) f : (nthreads e <> 0)%nat -> starts s0 -> reach s0 s -> step s s' -> faults s' = f :: faults s ->
  match f with
  | FStale b => exists row d c, code s = ILoad b :: ISet (row mod rpb s) row d :: c /\ b = row / rpb s /\ exists x w, In (b, (x, w)) (cache s)
  | FLong n => exists m c, code s = ISetRpb n m :: c /\ (n = 0 \/ n < N.of_nat (length (tb s)))
  | FReset => exists c, code s = IReset :: c /\ changed s = true
  end.
Proof.
  intros NT S0 H St F.
  assert (NC : forall (x : fault) l, l = x :: l -> False).
  { intros x l Q. apply (f_equal (@length _)) in Q. cbn in Q. lia. }
  inversion St as [? S|a R1 C0 C1 A|j Hj|Hj|j H1 H2 H3]; subst; try (cbn in F; now apply NC in F).
  inversion S as [junk i c ? R Hc Mw E J|j w y s1 w1 R Hw Hy E]; subst.
  - pose proof (i_phase _ _ (inv_reach s0 s NT S0 H R)) as P. rewrite Hc in P.
    assert (Pb : forall (t : state e) r row' d, faults (put_buffer t r row' d) = faults t).
    { intros t r row' d. unfold put_buffer. destruct (SetData _ _ _ _ _ _); reflexivity. }
    assert (Ld : forall b, faults (load junk (set_code s c) b) = f :: faults s -> f = FStale b /\ cached (cache s) b = true).
    { intros b. unfold load. cbn [cache set_code]. destruct (cached (cache s) b); cbn [nblk file add_fault set_code]; destruct (N.ltb_spec b (nblk s)); [destruct (file s b); [|destruct junk]| |destruct (file s b); [|destruct junk]|]; sm;
        intros Q; try (now apply NC in Q); injection Q as <-; auto. }
    destruct i; cbn [exec] in E;
      repeat match type of E with
      | (if ?b then _ else _) = Some _ => destruct b eqn:?
      | match ?b with _ => _ end = Some _ => destruct b eqn:?
      end; try discriminate; injection E as <-; rewrite ?Pb in F;
      repeat match type of F with faults (if ?b then _ else _) = _ => destruct b eqn:? end; try (cbn in F; now apply NC in F).
    + apply Ld in F. destruct F as (-> & F). pose proof F as F'. apply cached_In in F. destruct F as ((x & w) & F).
      inversion P; subst; try (match goal with H : maybe_store ?st ++ _ = _ |- _ => destruct st; [discriminate|]; injection H as <- <- end).
      * exists row, d, []. repeat split; eauto.
      * congruence.
    + cbn in F. injection F as <-. exists m, c. split; trivial. apply andb_false_iff in Heqb. destruct Heqb as [Q|Q].
      * apply N.leb_gt in Q. auto.
      * apply negb_false_iff, N.eqb_eq in Q. auto.
    + cbn in F. injection F as <-. exists c. now split.
  - exfalso. destruct w as [| | |b x|b|]; cbn [wexec] in E; unfold pick in E;
      repeat match type of E with
      | (if ?b then _ else _) = Some _ => destruct b
      | match match ?b with _ => _ end with _ => _ end = Some _ => destruct b
      | match ?b with _ => _ end = Some _ => destruct b
      end; try discriminate; injection E as <- <-; cbn in F; now apply NC in F.
Qed.

(** block size and antenna count never change once known *)
Lemma rpb_fixed {e} (s0 s s' : state e) : (nthreads e <> 0)%nat -> starts s0 -> reach s0 s -> status s = Running -> step s s' ->
  rpb s <> 0 -> rpb s' = rpb s /\ nant s' = nant s.
Proof.
  intros NT S0 H R0 St Z. inversion St as [? S|a R1 C0 C1 A|j Hj|Hj|j H1 H2 H3]; subst; try (split; reflexivity).
  inversion S as [junk i c ? R Hc Mw E J|j w y s1 w1 R Hw Hy E]; subst.
  - pose proof (i_phase _ _ (inv_reach s0 s NT S0 H R)) as P. rewrite Hc in P.
    assert (Pb : forall (t : state e) r row' d, rpb (put_buffer t r row' d) = rpb t /\ nant (put_buffer t r row' d) = nant t).
    { intros t r row' d. unfold put_buffer. destruct (SetData _ _ _ _ _ _); split; reflexivity. }
    assert (Ld : forall (t : state e) b, rpb (load junk t b) = rpb t /\ nant (load junk t b) = nant t).
    { intros t b. unfold load. destruct (cached _ _); sm; destruct (N.ltb_spec b (nblk t)); [destruct (file t b); [|destruct junk]| |destruct (file t b); [|destruct junk]|]; split; reflexivity. }
    destruct i; cbn [exec] in E;
      repeat match type of E with
      | (if ?b then _ else _) = Some _ => destruct b eqn:?
      | match ?b with _ => _ end = Some _ => destruct b eqn:?
      end; try discriminate; injection E as <-;
      rewrite ?(proj1 (Pb _ _ _ _)), ?(proj2 (Pb _ _ _ _)), ?(proj1 (Ld _ _)), ?(proj2 (Ld _ _)); try (split; reflexivity).
    + exfalso. inversion P; subst; try (destruct (changed s); discriminate). congruence.
    + destruct (changed s); split; reflexivity.
    + destruct (rpb s =? 0); split; reflexivity.
  - destruct w as [| | |b x|b|]; cbn [wexec] in E; unfold pick in E;
      repeat match type of E with
      | (if ?b then _ else _) = Some _ => destruct b
      | match match ?b with _ => _ end with _ => _ end = Some _ => destruct b
      | match ?b with _ => _ end = Some _ => destruct b
      end; try discriminate; injection E as <- <-; split; reflexivity.
Qed.

(** reading a row with known contents is defined *)
Lemma read_defined {e} (s0 s s' : state e) row d junk c : (nthreads e <> 0)%nat -> rows_kept e -> starts s0 -> reach s0 s ->
  status s = Running -> faults s = [] -> val s row = Some d -> code s = IRead row :: c -> exec junk s (IRead row) c = Some s' -> status s' = Running.
Proof.
  intros NT RK S0 H R F V Hc E. pose proof (dinv_reach s0 s NT RK S0 H R F) as D. pose proof (inv_reach s0 s NT S0 H R) as I.
  pose proof (i_phase _ _ I) as Ph. rewrite Hc in Ph.
  inversion Ph as [| | | | | | | |? ? ? ? ? ? ? ? Q|? B Hr Z Hcur Q| | | | | | | | | | | | | | | | |];
    try (match goal with H : maybe_store ?st ++ _ = _ |- _ => destruct st; discriminate end). subst.
  destruct (d_val _ _ D row d Z V) as (_ & V2). destruct V2 as (rw & V2 & V3); trivial.
  - right. rewrite Hc. split; [apply B|reflexivity].
  - cbn [exec] in E. unfold GetData in E. rewrite V2 in E. now injection E as <-.
Qed.

(** * C38: the deadlock *)
Definition stuck {e} (s : state e) : Prop :=
  status s = Running /\ mgr s = true /\ workers s <> [] /\ (exists c, code s = IStop :: c) /\
  (forall b x w, In (b, (x, w)) (cache s) -> encodable e (rpb s) (nant s) x = true) /\
  (forall b x, In (WPicked b x) (workers s) -> encodable e (rpb s) (nant s) x = true) /\
  exists b x w, In (b, (x, w)) (cache s) /\ ~ In (WWritten b) (workers s).

Lemma stuck_step {e} (s s' : state e) : stuck s -> step s s' -> stuck s' /\ code s' = code s.
Proof.
  intros (R0 & M & W & (c0 & Hc0) & Ec & Ep & b0 & x0 & w0 & Hb & Hn) St.
  assert (Up : forall k w w' (l : list (wpc (data e))), nth_error l k = Some w -> forall u, In u (upd l k w') -> u = w' \/ In u l).
  { intros k w w' l Hl u Hu. destruct (upd_split l k w w' Hl) as (l1 & l2 & E1 & E2). rewrite E2 in Hu. rewrite E1.
    rewrite in_app_iff in *. cbn [In] in *. intuition. }
  assert (Un : forall k w w' (l : list (wpc (data e))), nth_error l k = Some w -> upd l k w' <> []).
  { intros k w w' l Hl Q. destruct (upd_split l k w w' Hl) as (l1 & l2 & E1 & E2). rewrite E2 in Q. now destruct l1. }
  inversion St as [? S|a R1 C0 C1 A|j Hj|Hj|j H1 H2 H3]; subst; try congruence.
  - inversion S as [junk i c ? R Hc Mw E J|j w y s1 w1 R Hw Hy E]; subst.
    + rewrite Hc0 in Hc. injection Hc as <- <-. cbn [exec] in E. destruct (workers s) as [|w ws] eqn:Ew; [easy|].
      destruct (cache s) as [|p ps] eqn:Cs; [easy|]. injection E as <-. split; [|reflexivity].
      rewrite <- Ew, <- Cs in *. unfold stuck. cbn. rewrite Ew at 1. repeat (split; trivial); eauto 10. discriminate.
    + assert (Pk : forall s1 w1, pick s = Some (s1, w1) -> stuck (set_worker s1 j w1) /\ code (set_worker s1 j w1) = code s).
      { intros s2 w2 Q. unfold pick in Q. destruct (isWriteItemAvailable (cache s)) as [(b & x)|] eqn:Av; [|discriminate].
        injection Q as <- <-. split; [|reflexivity]. apply avail_some in Av. unfold stuck. cbn. split; trivial. split; trivial. split; [eauto|].
        split; [eauto|]. 
        assert (Mk : forall b1 x1 v1, In (b1, (x1, v1)) (markWritten (cache s) b) -> exists v, In (b1, (x1, v)) (cache s)).
        { intros b1 x1 v1 Hin. unfold markWritten in Hin. apply in_map_iff in Hin. destruct Hin as ((b2 & (x2 & v2)) & Q & Hin).
          cbn in Q. destruct (b2 =? b); injection Q as <- <- <-; eauto. }
        assert (Mk' : exists v, In (b0, (x0, v)) (markWritten (cache s) b)).
        { unfold markWritten. destruct (N.eqb_spec b0 b) as [->|N].
          - exists true. apply in_map_iff. exists (b, (x0, w0)). cbn. now rewrite N.eqb_refl.
          - exists w0. apply in_map_iff. exists (b0, (x0, w0)). apply N.eqb_neq in N. cbn. now rewrite N. }
        split. { intros b1 x1 v1 Hin. apply Mk in Hin. destruct Hin. eauto. }
        split. { intros b1 x1 Hin. eapply Up in Hin; eauto. destruct Hin as [Q|Hin]; [injection Q as -> ->; eauto|eauto]. }
        destruct Mk' as (v & Mk'). exists b0, x0, v. split; trivial. intros Hin. eapply Up in Hin; eauto. destruct Hin; [discriminate|auto]. }
      assert (Lw : forall w2, (forall b, w2 <> WWritten b) -> (forall b x, w2 <> WPicked b x) -> stuck (set_worker s j w2) /\ code (set_worker s j w2) = code s).
      { intros w2 N1 N2. split; [|reflexivity]. unfold stuck. cbn. split; trivial. split; trivial. split; [eauto|]. split; [eauto|]. split; [trivial|]. split.
        - intros b x Hin. eapply Up in Hin; eauto. destruct Hin as [Q|Hin]; [now destruct (N2 b x)|eauto].
        - exists b0, x0, w0. split; trivial. intros Hin. eapply Up in Hin; eauto. destruct Hin as [Q|Hin]; [now destruct (N1 b0)|auto]. }
      destruct w as [| | |b x|b|]; cbn [wexec] in E; try discriminate.
      * destruct (stopF s); [injection E as <- <-; apply Lw; discriminate|].
        destruct (pick s) as [(s2 & w2)|] eqn:Q; injection E as <- <-; [auto|apply Lw; discriminate].
      * destruct (pick s) as [(s2 & w2)|] eqn:Q; injection E as <- <-; [auto|apply Lw; destruct (stopF s); discriminate].
      * rewrite (Ep b x) in E by (eapply nth_error_In; eauto). now rewrite M in E.
      * injection E as <- <-. split; [|reflexivity]. unfold stuck, notify. cbn. split; trivial. split; trivial.
        assert (Hm : nth_error (map wake (workers s)) j = Some (WWritten b)) by (rewrite nth_error_map, Hw; reflexivity).
        split; [eauto|]. split; [eauto|].
        split. { intros b1 x1 v1 Hin. unfold erase in Hin. apply filter_In in Hin. destruct Hin. eauto. }
        split. { intros b1 x1 Hin. eapply Up in Hin; eauto. destruct Hin as [Q|Hin]; [discriminate|]. apply wake_In in Hin.
          destruct Hin as (_ & [Hin|(Q & _)]); [eauto|discriminate]. }
        exists b0, x0, w0. split.
        -- unfold erase. apply filter_In. split; trivial. cbn. apply negb_true_iff, N.eqb_neq. intros ->. apply Hn. eapply nth_error_In; eauto.
        -- intros Hin. eapply Up in Hin; eauto. destruct Hin as [Q|Hin]; [discriminate|]. apply wake_In in Hin.
           destruct Hin as (_ & [Hin|(Q & _)]); [auto|discriminate].
  - split; [|reflexivity]. unfold stuck. cbn. split; trivial. split; trivial. split; [eauto|]. split; [eauto|]. split; [trivial|]. split.
    + intros b x Hin. eapply Up in Hin; eauto. destruct Hin as [Q|Hin]; [discriminate|eauto].
    + exists b0, x0, w0. split; trivial. intros Hin. eapply Up in Hin; eauto. destruct Hin as [Q|Hin]; [discriminate|auto].
  - split; [|reflexivity]. unfold stuck. cbn. repeat (split; trivial); eauto 10.
Qed.

Lemma stuck_forever {e} (s s' : state e) : stuck s -> reach s s' -> status s' = Running /\ code s' = code s /\ code s' <> [].
Proof.
  intros S H. assert (X : stuck s' /\ code s' = code s).
  { induction H as [|s1 s2 H IH St]; [auto|]. destruct IH as (I1 & I2). destruct (stuck_step _ _ I1 St). split; trivial. congruence. }
  destruct X as (X & Q). split; [apply X|]. split; trivial. rewrite Q. destruct S as (_ & _ & _ & (c & ->) & _). discriminate.
Qed.

(** * C41: a buffer all of whose rows were set *)
Lemma full_buffer_encodable (e : env) rp na (cs : list (set_call (data e))) b : (0 < nSamp e)%nat ->
  Forall (fun c => (nSamp e <= length (c_data c))%nat /\ (af e = true -> (c_a1 c < na)%nat /\ (c_a2 c < na)%nat) /\ N.of_nat (c_row c) < rp) cs ->
  run_sets (nSamp e) cs [] = Ok b ->
  (forall r, (r < NRows b)%nat -> exists c, In c cs /\ c_row c = r) <-> encodable e rp na b = true.
Proof.
  intros Z F E.
  assert (F1 : Forall (fun c => nSamp e <= length (c_data c))%nat cs) by (eapply Forall_impl; [|exact F]; cbn; tauto).
  destruct (sets_ok (nSamp e) cs [] F1) as (b' & E' & L & R). rewrite E in E'. injection E' as <-.
  assert (X : forall c r, last_call cs r = Some c -> In c cs /\ c_row c = r).
  { clear. induction cs as [|x cs IH]; intros c r; cbn [last_call]; [discriminate|]. destruct (last_call cs r) eqn:E.
    - intros [= <-]. destruct (IH _ _ E). split; [now right|trivial].
    - destruct (Nat.eqb_spec (c_row x) r); [|discriminate]. intros [= <-]. split; [now left|trivial]. }
  assert (X' : forall c r, In c cs -> c_row c = r -> last_call cs r <> None).
  { clear. induction cs as [|x cs IH]; intros c r; [intros []|]; intros [->|Hin] Hr; cbn [last_call].
    - destruct (last_call cs r); [discriminate|]. rewrite Hr, Nat.eqb_refl. discriminate.
    - specialize (IH c r Hin Hr). destruct (last_call cs r); [discriminate|congruence]. }
  assert (Y : forall r, row_at ([] : tbb (data e)) r = no_row) by (intros []; reflexivity).
  destruct (size_after_spec cs (length ([] : tbb (data e)))) as (_ & S2 & S3). cbv zeta in *. rewrite <- L in S2, S3.
  rewrite Forall_forall in F. unfold NRows.
  assert (Hl : N.of_nat (length b) <= rp).
  { destruct S3 as [S3|(c & Hin & S3)]; [rewrite S3; cbn; lia|]. destruct (F c Hin) as (_ & _ & F3). lia. }
  split.
  - intros Cv. unfold encodable. apply andb_true_iff. split; [now apply N.leb_le|]. apply forallb_forall.
    intros rw Hin. apply In_nth_error in Hin. destruct Hin as (r & Hr).
    assert (Lr : (r < length b)%nat) by (apply nth_error_Some; congruence).
    destruct (Cv r Lr) as (c & Hin & Hc). specialize (R r). unfold row_at in R at 1. rewrite Hr in R.
    destruct (last_call cs r) as [c'|] eqn:Lc; [|now apply (X' c r Hin Hc) in Lc]. destruct (X _ _ Lc) as (Hin' & _).
    destruct (F c' Hin') as (G1 & G2 & _). subst rw. cbn. rewrite firstn_length, Nat.min_l, Nat.eqb_refl by trivial. cbn.
    destruct (af e); trivial. cbn. destruct (G2 eq_refl). apply andb_true_iff. split; now apply Nat.ltb_lt.
  - intros En r Lr. unfold encodable in En. apply andb_true_iff in En. destruct En as (_ & En). rewrite forallb_forall in En.
    destruct (nth_error b r) as [rw|] eqn:Er; [|apply nth_error_None in Er; lia]. specialize (En rw (nth_error_In _ _ Er)).
    apply andb_true_iff in En. destruct En as (En & _). apply Nat.eqb_eq in En. specialize (R r). unfold row_at in R at 1. rewrite Er in R.
    destruct (last_call cs r) as [c|] eqn:Lc; [exists c; now apply X|]. rewrite Y in R. subst rw. cbn in En. lia.
Qed.
