(** Reachable states of the threaded column: safety, progress, termination. *)
From Coq Require Import Wellfounded Relation_Operators.
From Verif Require Import Base BaseLemmas TimeBlockBuffer TbbSpec TbbProofs Column ColumnSpec ColumnProofs ColumnInv.
Local Open Scope N_scope.
Local Arguments busy : simpl never. Local Arguments upd : simpl never. Local Arguments cached : simpl never.
Local Arguments erase : simpl never. Local Arguments markWritten : simpl never. Local Arguments maxCache : simpl never.
Local Arguments insert : simpl never.

Lemma inv_start {e} (s : state e) : (nthreads e <> 0)%nat -> starts s -> inv (file s) s.
Proof.
  intros NT [|f nb rp na Hr Hn Hf].
  - constructor; cbn; trivial; try easy.
    + constructor.
    + lia.
    + constructor.
    + intros b. split; [easy|]. intros (x & []).
    + constructor. repeat split; cbn; easy.
  - assert (W : forall w, In w (repeat (@WTop (data e)) (nthreads e)) -> w = WTop) by (intros w; apply repeat_spec).
    assert (B : busy (repeat (@WTop (data e)) (nthreads e)) = []).
    { clear. induction (nthreads e) as [|n IH]; trivial. }
    constructor; cbn; trivial; try easy.
    + constructor.
    + lia.
    + rewrite B. constructor.
    + rewrite B. intros b. split; [easy|]. intros (x & []).
    + intros b x H. apply W in H. discriminate.
    + intros H. apply W in H. discriminate.
    + constructor. repeat split; cbn; trivial; try easy. intros _. destruct (nthreads e); [easy|discriminate].
Qed.

Lemma step_running {e} (s s' : state e) : step s s' -> status s' = Running -> status s = Running.
Proof.
  intros S R. inversion S as [? St|? R0|? ?|?|? ? ? ?]; subst; trivial.
  inversion St; trivial.
Qed.

Lemma inv_step {e} f0 (s s' : state e) : (nthreads e <> 0)%nat -> inv f0 s -> status s = Running -> step s s' ->
  status s' = Running -> inv f0 s'.
Proof.
  intros NT I R S R'. inversion S as [? St|a R0 C0 C1 A|k H|H|n H1 H2 H3]; subst.
  - inversion St as [junk i c ? _ Hc Mw E|k w y s1 w1 _ Hw Hy E]; subst.
    + eapply inv_main; eauto.
    + eapply inv_worker; eauto.
  - pose proof (i_phase _ _ I) as P. rewrite C0 in P.
    assert (B : base s) by (inversion P; subst; trivial; congruence). clear P.
    apply (inv_local f0 s); try reflexivity; trivial.
    + intros M. cbn in M. pose proof (i_mwait _ _ I M) as Bl. unfold blocked in Bl. rewrite C0 in Bl. easy.
    + cbn. destruct a; cbn in *; constructor; trivial. now left.
  - eapply inv_set_worker_wait; eauto.
  - apply (inv_local f0 s); try reflexivity; trivial; [easy|]. cbn.
    apply (phase_transport s); trivial; try reflexivity. apply (i_phase _ _ I).
  - destruct I as [I1 I2 I3 I4 I5 I6 I7 I8 I9 I10 I11 I12 I13]. constructor; cbn; trivial.
    apply (phase_transport s); trivial; try reflexivity.
Qed.

Lemma inv_reach {e} (s0 s : state e) : (nthreads e <> 0)%nat -> starts s0 -> reach s0 s -> status s = Running -> inv (file s0) s.
Proof.
  intros NT S0 H. induction H as [|s s' H IH St]; intros R.
  - now apply inv_start.
  - pose proof (step_running _ _ St R) as R0. eapply inv_step; eauto.
Qed.

(** * C33 *)
Lemma cache_safe {e} (s0 s : state e) : (nthreads e <> 0)%nat -> starts s0 -> reach s0 s -> status s = Running ->
  NoDup (map fst (cache s)) /\ (length (cache s) <= maxCache e)%nat /\ NoDup (busy (workers s)) /\
  (forall b x, In (WPicked b x) (workers s) -> In (b, (x, true)) (cache s)) /\
  (forall b x, last s b = Some x ->
     (exists w, In (b, (x, w)) (cache s)) \/ (exists y, file s b = Some y /\ enc e (rpb s) (nant s) x y)).
Proof.
  intros NT S0 H R. pose proof (inv_reach s0 s NT S0 H R) as I. split; [apply I|]. split; [apply I|]. split; [apply I|].
  split; [apply I|]. intros b x HL. destruct (cached (cache s) b) eqn:C.
  - left. apply cached_In in C. destruct C as ((x' & w) & C). pose proof (i_last _ _ I _ _ _ C) as E.
    exists w. congruence.
  - right. now apply (i_disk _ _ I).
Qed.

(** * C34 *)
Lemma on_disk {e} (s0 s : state e) : (nthreads e <> 0)%nat -> starts s0 -> reach s0 s -> status s = Running ->
  closed s = true -> code s = [] ->
  cache s = [] /\ workers s = [] /\
  (forall b x, last s b = Some x -> exists y, file s b = Some y /\ enc e (rpb s) (nant s) x y) /\
  (forall b, last s b = None -> file s b = file s0 b).
Proof.
  intros NT S0 H R C1 C2. pose proof (inv_reach s0 s NT S0 H R) as I.
  pose proof (i_phase _ _ I) as P. rewrite C2 in P. inversion P as [B|?|?|?|?|?|?|?|?|?|?|?|?|?|?|?|?|?|?|?|?|?|?|?|?|?|? ? ? W C];
    try (match goal with H : maybe_store ?st ++ _ = _ |- _ => destruct st; discriminate end).
  - destruct B. congruence.
  - split; trivial. split; trivial. split; [|apply I]. intros b x HL. apply (i_disk _ _ I); trivial. now rewrite C.
Qed.

(** * C37: progress *)
Lemma pick_enabled {e} (s : state e) w y : w = WTop \/ w = WWoken -> exists s' w', wexec y s w = Some (s', w').
Proof.
  intros [->| ->]; cbn.
  - destruct (stopF s); [eauto|]. destruct (pick s) as [(? & ?)|]; eauto.
  - destruct (pick s) as [(? & ?)|]; eauto.
Qed.

(** the encoder accepts what the encoding threads are working on *)
Definition can_encode {e} (s : state e) : Prop :=
  forall b x, In (WPicked b x) (workers s) -> encodable e (rpb s) (nant s) x = true -> exists y, enc e (rpb s) (nant s) x y.

Lemma worker_enabled {e} (s : state e) w : status s = Running -> In w (workers s) ->
  can_encode s -> inhabited (bytes e) ->
  (w = WTop \/ w = WWoken \/ (exists b x, w = WPicked b x /\ (mgr s = false \/ encodable e (rpb s) (nant s) x = false)) \/ (exists b, w = WWritten b)) ->
  exists s', istep s s'.
Proof.
  intros R Hin En [y0] Hw. apply In_nth_error in Hin. destruct Hin as (k & Hk).
  destruct Hw as [H|[H|[(b & x & H & M)|(b & H)]]].
  - destruct (pick_enabled s w y0) as (s' & w' & E); auto. eexists. eapply step_worker; eauto. intros; subst; discriminate.
  - destruct (pick_enabled s w y0) as (s' & w' & E); auto. eexists. eapply step_worker; eauto. intros; subst; discriminate.
  - subst w. destruct (encodable e (rpb s) (nant s) x) eqn:Ec.
    + destruct M as [M|M]; [|discriminate].
      destruct (En b x (nth_error_In _ _ Hk) Ec) as (y & Ey). eexists. eapply (step_worker s k _ y); eauto; [|cbn; rewrite Ec, M; reflexivity].
      intros ? ? [= <- <-] _. exact Ey.
    + eexists. eapply (step_worker s k _ y0); eauto; [|cbn; rewrite Ec; reflexivity]. intros ? ? [= <- <-]. congruence.
  - subst w. eexists. eapply (step_worker s k _ y0); eauto; [|reflexivity]. intros; discriminate.
Qed.

Lemma progress_at {e} (s0 s : state e) : (nthreads e <> 0)%nat -> starts s0 ->
  can_encode s -> inhabited (bytes e) ->
  reach s0 s -> status s = Running -> code s <> [] -> (mgr s = false \/ cache s = []) -> exists s', istep s s'.
Proof.
  intros NT S0 En Inh H R C M. pose proof (inv_reach s0 s NT S0 H R) as I.
  destruct (mwait s) eqn:Mw.
  - pose proof (i_mwait _ _ I Mw) as Bl.
    assert (Cn : cache s <> []).
    { unfold blocked in Bl. destruct (code s) as [|[] ?]; try easy.
      - destruct Bl as [Bl|Bl]; intros Z; rewrite Z in Bl; [|discriminate]. unfold maxCache in Bl. cbn [length] in Bl. lia.
      - intros Z. rewrite Z in Bl. discriminate. }
    destruct M as [M|M]; [|contradiction].
    destruct (isWriteItemAvailable (cache s)) as [(b & x)|] eqn:Av.
    + apply avail_some in Av.
      assert (Wn : workers s <> [] /\ stopF s = false).
      { pose proof (i_phase _ _ I) as P. unfold blocked in Bl.
        destruct (N.eq_dec (rpb s) 0) as [Z|Z]; inversion P; subst;
          repeat match goal with H : _ = code s |- _ => rewrite <- H in Bl; clear H end; cbn in Bl; try easy;
          try (destruct (changed s); cbn in Bl; try easy);
          repeat match goal with H : base s |- _ => destruct H as (B1 & B2 & B3 & B4 & B5) end;
          unfold quiet in *; tauto. }
      destruct Wn as (Wn & St). destruct (workers s) as [|w ws] eqn:Ew; [easy|].
      assert (Hin : In w (workers s)) by (rewrite Ew; now left).
      apply (worker_enabled s w); trivial. destruct w as [| | |b' x'|b'|]; auto.
      * rewrite <- Ew in *. destruct (i_wait _ _ I Hin) as (_ & W). apply W in Av. discriminate.
      * right. right. left. eauto.
      * right. right. right. eauto.
      * rewrite <- Ew in *. pose proof (i_done _ _ I Hin). congruence.
    + rewrite avail_none in Av. destruct (cache s) as [|(b & (x & w)) cs] eqn:Cs; [easy|].
      assert (w = true) by (apply (Av b x); now left). subst w.
      assert (Hb : In b (busy (workers s))) by (apply (i_busy _ _ I); exists x; rewrite Cs; now left).
      apply busy_In in Hb. destruct Hb as [(x' & Hb)|Hb].
      * apply (worker_enabled s _ R Hb); trivial. right. right. left. eauto.
      * apply (worker_enabled s _ R Hb); trivial. right. right. right. eauto.
  - destruct (code s) as [|i c] eqn:Ec; [easy|].
    destruct (exec None s i c) as [s'|] eqn:E; [eexists; eapply step_main; eauto; exact Logic.I|].
    (* only join can be impossible *)
    assert (i = IJoin /\ existsb (fun w => match w with WDone => false | _ => true end) (workers s) = true).
    { destruct i; cbn in E;
        repeat match type of E with (if ?b then _ else _) = None => destruct b eqn:? | match ?b with _ => _ end = None => destruct b eqn:? end; try discriminate.
      split; trivial. clear - Heqb. induction (workers s) as [|w ws IH]; [discriminate|].
      cbn [forallb existsb] in *. destruct w; cbn [andb orb] in *; auto. }
    destruct H0 as (-> & Ex). apply existsb_exists in Ex. destruct Ex as (w & Hin & Hw).
    pose proof (i_phase _ _ I) as P. rewrite Ec in P.
    assert (Q : stopF s = true /\ cache s = []).
    { inversion P; subst; try (destruct (changed s); discriminate); try (unfold quiet in *; tauto). }
    destruct Q as (Q1 & Q2). apply (worker_enabled s w); trivial. destruct w as [| | |b x|b|]; auto; try discriminate.
    + destruct (i_wait _ _ I Hin). congruence.
    + apply (i_picked _ _ I) in Hin. rewrite Q2 in Hin. easy.
    + right. right. right. eauto.
Qed.

Lemma progress {e} (s0 s : state e) : (nthreads e <> 0)%nat -> starts s0 ->
  (forall rp na x, encodable e rp na x = true -> exists y, enc e rp na x y) -> inhabited (bytes e) ->
  reach s0 s -> status s = Running -> code s <> [] -> (mgr s = false \/ cache s = []) -> exists s', istep s s'.
Proof. intros NT S0 En. apply progress_at; trivial. intros b x _. apply En. Qed.
