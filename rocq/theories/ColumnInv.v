(** The invariant of the thread protocol holds in every reachable state. *)
From Verif Require Import Base BaseLemmas TimeBlockBuffer TbbSpec TbbProofs Column ColumnSpec ColumnProofs.
Local Open Scope N_scope.
Local Arguments busy : simpl never. Local Arguments upd : simpl never. Local Arguments insert : simpl never.
Local Arguments erase : simpl never. Local Arguments cached : simpl never. Local Arguments markWritten : simpl never.
Local Arguments maxCache : simpl never.

Lemma phase_transport {e} (s s' : state e) c :
  closed s' = closed s -> mgr s' = mgr s -> rpb s' = rpb s -> cur s' = cur s -> changed s' = changed s ->
  last s' = last s -> stopF s' = stopF s -> (workers s' = [] <-> workers s = []) -> (cache s = [] -> cache s' = []) ->
  (forall b, cached (cache s) b = false -> cached (cache s') b = false) -> phase s c -> phase s' c.
Proof.
  intros E1 E2 E3 E4 E5 E6 E7 W C B P.
  assert (Q : quiet s -> quiet s') by (unfold quiet; rewrite E6; tauto).
  assert (BB : base s -> base s') by (unfold base; rewrite E1, E2, E3, E7; tauto).
  inversion P; subst; rewrite <- ?E3; constructor; rewrite ?E1, ?E2, ?E3, ?E4, ?E5, ?E7; auto; tauto.
Qed.

(** steps that do not touch what the threads share *)
Lemma inv_local {e} f0 (s s' : state e) :
  file s' = file s -> rpb s' = rpb s -> nant s' = nant s -> cache s' = cache s -> stopF s' = stopF s ->
  workers s' = workers s -> last s' = last s -> (mwait s' = true -> blocked s') -> phase s' (code s') ->
  inv f0 s -> inv f0 s'.
Proof.
  intros E1 E2 E3 E4 E5 E6 E7 M P [I1 I2 I3 I4 I5 I6 I7 I8 I9 I10 I11 I12 I13].
  constructor; rewrite ?E1, ?E2, ?E3, ?E4, ?E5, ?E6, ?E7; trivial.
Qed.

Lemma inv_workers {e} f0 (s s' : state e) :
  inv f0 s -> status s' = status s ->
  closed s' = closed s -> mgr s' = mgr s -> rpb s' = rpb s -> nant s' = nant s -> cur s' = cur s -> changed s' = changed s ->
  last s' = last s -> stopF s' = stopF s -> file s' = file s -> code s' = code s ->
  (workers s' = [] <-> workers s = []) -> cache s' = cache s -> busy (workers s') = busy (workers s) ->
  (forall w, In w (workers s') -> w = WTop \/ w = WWoken \/ In w (workers s) \/ (w = WDone /\ stopF s = true) \/
     (w = WWait /\ stopF s = false /\ forall b x w, In (b, (x, w)) (cache s) -> w = true)) ->
  (mwait s' = true -> mwait s = true) -> inv f0 s'.
Proof.
  intros I ES E1 E2 E3 E3' E4 E5 E6 E7 E8 E9 W C B In' M.
  destruct I as [I1 I2 I3 I4 I5 I6 I7 I8 I9 I10 I11 I12 I13].
  constructor; rewrite ?E3, ?E3', ?E6, ?E7, ?E8, ?E9, ?C, ?B; trivial.
  - intros b x H. apply In' in H. destruct H as [H|[H|[H|[(H & _)|(H & _)]]]]; try discriminate. now apply I5.
  - intros b x H. apply In' in H. destruct H as [H|[H|[H|[(H & _)|(H & _)]]]]; try discriminate. now apply I6.
  - intros H. apply In' in H. destruct H as [H|[H|[H|[(H & _)|(H & ?)]]]]; try discriminate; auto.
  - intros H. apply In' in H. destruct H as [H|[H|[H|[(H & ?)|(H & _)]]]]; try discriminate; auto.
  - intros H. apply M in H. apply I12 in H. unfold blocked in *. rewrite E9, C, E4. destruct (code s) as [|[] ?]; tauto.
  - apply (phase_transport s); trivial.
    + now rewrite C.
    + intros b. now rewrite C.
Qed.

Lemma nil_app_iff {A} (l1 l2 : list A) x y : l1 ++ x :: l2 = [] <-> l1 ++ y :: l2 = [].
Proof. destruct l1; split; discriminate. Qed.

Lemma inv_set_worker_wait {e} f0 (s : state e) k w w' :
  inv f0 s -> nth_error (workers s) k = Some w -> busy1 w = [] -> busy1 w' = [] ->
  (w' = WTop \/ w' = WWoken \/ (w' = WDone /\ stopF s = true) \/
     (w' = WWait /\ stopF s = false /\ forall b x w, In (b, (x, w)) (cache s) -> w = true)) ->
  inv f0 (set_worker s k w').
Proof.
  intros I H B1 B2 Hw. destruct (upd_split (workers s) k w w' H) as (l1 & l2 & E1 & E2).
  apply (inv_workers f0 s); trivial; cbn.
  - rewrite E2, E1. apply nil_app_iff.
  - rewrite E2, E1, !busy_app, !busy_cons, B1, B2. reflexivity.
  - intros v Hv. rewrite E2 in Hv. rewrite E1. apply in_app_iff in Hv. destruct Hv as [Hv|[<-|Hv]].
    + right. right. left. apply in_app_iff. now left.
    + tauto.
    + right. right. left. apply in_app_iff. right. now right.
Qed.

Lemma pick_inv {e} f0 (s s' : state e) k w w' :
  inv f0 s -> nth_error (workers s) k = Some w -> busy1 w = [] -> pick s = Some (s', w') -> inv f0 (set_worker s' k w').
Proof.
  unfold pick. intros I H B E. destruct (isWriteItemAvailable (cache s)) as [(b & x)|] eqn:Av; [|discriminate].
  injection E as <- <-. apply avail_some in Av.
  destruct (upd_split (workers s) k w (WPicked b x) H) as (l1 & l2 & E1 & E2).
  destruct I as [I1 I2 I3 I4 I5 I6 I7 I8 I9 I10 I11 I12 I13].
  assert (Nb : ~ In b (busy (workers s))).
  { intros Hb. apply I4 in Hb. destruct Hb as (x' & Hx). pose proof (key_unique _ _ _ _ I1 Av Hx). congruence. }
  assert (Bs : busy (workers s) = busy l1 ++ busy l2) by (rewrite E1, busy_app, busy_cons, B; reflexivity).
  assert (Ww : forall v, In v (l1 ++ WPicked b x :: l2) -> v = WPicked b x \/ In v (workers s)).
  { intros v. rewrite E1, !in_app_iff. cbn. intros [|[|]]; auto. }
  constructor; cbn; rewrite ?E2.
  - now rewrite mark_keys.
  - now rewrite mark_length.
  - rewrite busy_app, busy_cons. cbn [busy1]. cbn [app]. apply (NoDup_Add (a := b) (l := busy l1 ++ busy l2)).
    + apply Add_app.
    + rewrite <- Bs. now split.
  - intros b'. rewrite busy_app, busy_cons, in_app_iff. cbn [busy1]. cbn [app In].
    split.
    + intros [Hb|[<-|Hb]].
      * assert (Hb2 : In b' (busy (workers s))) by (rewrite Bs; apply in_app_iff; now left).
        assert (b' <> b) by (intros ->; auto). apply I4 in Hb2. destruct Hb2 as (x' & Hx). exists x'. apply mark_In. auto.
      * exists x. apply mark_In. left. repeat split. now exists false.
      * assert (Hb2 : In b' (busy (workers s))) by (rewrite Bs; apply in_app_iff; now right).
        assert (b' <> b) by (intros ->; auto). apply I4 in Hb2. destruct Hb2 as (x' & Hx). exists x'. apply mark_In. auto.
    + intros (x' & Hx). apply mark_In in Hx. destruct Hx as [(-> & _)|(Hn & Hx)]; [auto|].
      assert (Hb : In b' (busy (workers s))) by (apply I4; eauto). rewrite Bs in Hb. apply in_app_iff in Hb. tauto.
  - intros b' x' Hin. apply Ww in Hin. destruct Hin as [E|Hin].
    + injection E as -> ->. apply mark_In. left. repeat split. now exists false.
    + apply mark_In. apply I5 in Hin. destruct (N.eq_dec b' b) as [->|]; [|auto]. left. repeat split. now exists true.
  - intros b' x' Hin. apply Ww in Hin. destruct Hin as [E|Hin]; [discriminate|]. now apply I6.
  - intros b' x' w0 Hin. apply mark_In in Hin. destruct Hin as [(-> & _ & w1 & Hin)|(_ & Hin)]; eauto.
  - intros b' x' HL. rewrite mark_cached. eauto.
  - trivial.
  - intros Hin. apply Ww in Hin. destruct Hin as [E|Hin]; [discriminate|]. destruct (I10 Hin) as (W1 & W2). split; trivial.
    intros b' x' w0 Hx. apply mark_In in Hx. destruct Hx as [(-> & -> & _)|(_ & Hx)]; eauto.
  - intros Hin. apply Ww in Hin. destruct Hin as [E|Hin]; [discriminate|]. auto.
  - intros Hm. apply I12 in Hm. unfold blocked in *. cbn. rewrite mark_length.
    destruct (code s) as [|[] ?]; rewrite ?mark_cached; trivial. destruct Hm as (Hm1 & Hm2). split.
    + intros Z. apply Hm1. destruct (cache s); trivial. discriminate.
    + intros Z. apply Hm2. destruct (workers s); trivial. rewrite Z in E2. destruct l1; discriminate.
  - apply (phase_transport s); trivial; cbn.
    + rewrite E2, E1. apply nil_app_iff.
    + intros ->. reflexivity.
    + intros b'. now rewrite mark_cached.
Qed.

Lemma inv_worker {e} f0 (s s' : state e) k w w' y :
  inv f0 s -> status s = Running -> nth_error (workers s) k = Some w ->
  (forall b x, w = WPicked b x -> encodable e (rpb s) (nant s) x = true -> enc e (rpb s) (nant s) x y) ->
  wexec y s w = Some (s', w') -> status s' = Running -> inv f0 (set_worker s' k w').
Proof.
  intros I R H Y E R'. destruct w as [| | |b x|b|]; cbn [wexec] in E; try discriminate.
  - destruct (stopF s) eqn:S.
    + injection E as <- <-. eapply inv_set_worker_wait; eauto.
    + destruct (pick s) as [(s1 & w1)|] eqn:P.
      * injection E as <- <-. eapply pick_inv; eauto.
      * injection E as <- <-. eapply inv_set_worker_wait; eauto. right. right. right. split; trivial. split; trivial.
        unfold pick in P. destruct (isWriteItemAvailable (cache s)) as [(? & ?)|] eqn:Av; [discriminate|]. now apply avail_none.
  - destruct (pick s) as [(s1 & w1)|] eqn:P.
    + injection E as <- <-. eapply pick_inv; eauto.
    + unfold pick in P. destruct (isWriteItemAvailable (cache s)) as [(? & ?)|] eqn:Av; [discriminate|]. rewrite avail_none in Av.
      injection E as <- <-. destruct (stopF s) eqn:S; eapply inv_set_worker_wait; eauto; tauto.
  - destruct (encodable e (rpb s) (nant s) x) eqn:En; [|injection E as <- <-; discriminate].
    destruct (mgr s) eqn:Mg; [discriminate|]. injection E as <- <-.
    specialize (Y b x eq_refl En).
    destruct (upd_split (workers s) k (WPicked b x) (WWritten b) H) as (l1 & l2 & E1 & E2).
    destruct I as [I1 I2 I3 I4 I5 I6 I7 I8 I9 I10 I11 I12 I13].
    assert (Hp : In (WPicked b x) (workers s)) by (rewrite E1; apply in_app_iff; right; now left).
    assert (Hc : In (b, (x, true)) (cache s)) by auto. assert (Hl : last s b = Some x) by eauto.
    assert (Bs : busy (l1 ++ WWritten b :: l2) = busy (workers s)) by (rewrite E1, !busy_app, !busy_cons; reflexivity).
    assert (Ww : forall v, In v (l1 ++ WWritten b :: l2) -> v = WWritten b \/ In v (workers s)).
    { intros v. rewrite E1, !in_app_iff. cbn. intros [|[|]]; auto. }
    constructor; cbn; rewrite ?E2, ?Bs; trivial.
    + intros b' x' Hin. apply Ww in Hin. destruct Hin as [Hx|Hin]; [discriminate|auto].
    + intros b' x' Hin HL. apply Ww in Hin. destruct (N.eq_dec b' b) as [->|Hne].
      * exists y. rewrite upd_map_same. split; trivial. congruence.
      * rewrite upd_map_other by trivial. destruct Hin as [Hx|Hin]; [congruence|eauto].
    + intros b' x' HL HC. assert (b' <> b). { intros ->. apply cached_false with (v := (x, true)) in HC. auto. }
      rewrite upd_map_other by trivial. eauto.
    + intros b' HL. assert (b' <> b) by (intros ->; congruence). rewrite upd_map_other by trivial. auto.
    + intros Hin. apply Ww in Hin. destruct Hin as [Hx|Hin]; [discriminate|auto].
    + intros Hin. apply Ww in Hin. destruct Hin as [Hx|Hin]; [discriminate|auto].
    + intros Hm. apply I12 in Hm. unfold blocked in *. cbn. destruct (code s) as [|[] ?]; trivial.
      destruct Hm as (Hm1 & Hm2). split; trivial. rewrite E2. destruct l1; discriminate.
    + apply (phase_transport s); trivial; cbn; auto. rewrite E2, E1. apply nil_app_iff.
  - injection E as <- <-.
    assert (H' : nth_error (map wake (workers s)) k = Some (WWritten b)) by (rewrite nth_error_map, H; reflexivity).
    destruct (upd_split (map wake (workers s)) k (WWritten b) WTop H') as (l1 & l2 & E1 & E2).
    pose proof (i_max _ _ I) as Imax. pose proof (i_phase _ _ I) as Iph.
    destruct I as [I1 I2 I3 I4 I5 I6 I7 I8 I9 I10 I11 I12 I13].
    assert (Hp : In (WWritten b) (workers s)) by (eapply nth_error_In; eauto).
    assert (Bs : busy (workers s) = busy l1 ++ b :: busy l2) by (rewrite <- busy_wake, E1, !busy_app, !busy_cons; reflexivity).
    assert (Bs2 : busy (l1 ++ WTop :: l2) = busy l1 ++ busy l2) by (rewrite !busy_app, !busy_cons; reflexivity).
    assert (Nb : NoDup (busy l1 ++ busy l2) /\ ~ In b (busy l1 ++ busy l2)).
    { rewrite Bs in I3. split; [now apply NoDup_remove_1 in I3|now apply NoDup_remove_2 in I3]. }
    assert (Ww : forall v, In v (l1 ++ WTop :: l2) -> v = WTop \/ v = WWoken \/ (In v (workers s) /\ v <> WWait)).
    { intros v Hv. assert (Hv' : v = WTop \/ In v (map wake (workers s))).
      { rewrite E1. apply in_app_iff in Hv. destruct Hv as [Hv|[<-|Hv]]; [right; apply in_app_iff; now left|now left|].
        right. apply in_app_iff. right. now right. }
      destruct Hv' as [|Hv']; [auto|]. apply wake_In in Hv'. tauto. }
    constructor; cbn; rewrite ?E2, ?Bs2.
    + now apply erase_NoDup.
    + pose proof (erase_length b (cache s)). lia.
    + tauto.
    + intros b'. split.
      * intros Hb. assert (b' <> b) by (intros ->; tauto).
        assert (Hb2 : In b' (busy (workers s))) by (rewrite Bs; apply in_app_iff; apply in_app_iff in Hb; cbn; tauto).
        apply I4 in Hb2. destruct Hb2 as (x & Hx). exists x. now apply erase_In.
      * intros (x & Hx). apply erase_In in Hx. destruct Hx as (Hx & Hn). cbn in Hn.
        assert (Hb2 : In b' (busy (workers s))) by (apply I4; eauto). rewrite Bs in Hb2. apply in_app_iff in Hb2. cbn in Hb2.
        apply in_app_iff. destruct Hb2 as [|[|]]; auto; congruence.
    + intros b' x Hin. pose proof Hin as Hin2. apply Ww in Hin. destruct Hin as [Hx|[Hx|(Hin & _)]]; try discriminate.
      apply erase_In. split; [auto|]. cbn. intros ->. apply (proj2 Nb). rewrite <- Bs2. apply busy_In. left. now exists x.
    + intros b' x Hin. apply Ww in Hin. destruct Hin as [Hx|[Hx|(Hin & _)]]; try discriminate. auto.
    + intros b' x w0 Hin. apply erase_In in Hin. destruct Hin. eauto.
    + intros b' x HL HC. rewrite cached_erase in HC. destruct (N.eqb_spec b' b) as [->|Hn]; [|cbn in HC; eauto]. eauto.
    + trivial.
    + intros Hin. apply Ww in Hin. destruct Hin as [Hx|[Hx|(_ & Hx)]]; try discriminate. now contradict Hx.
    + intros Hin. apply Ww in Hin. destruct Hin as [Hx|[Hx|(Hx & _)]]; try discriminate. auto.
    + discriminate.
    + apply (phase_transport s); trivial; cbn.
      * rewrite E2. destruct (workers s); [easy|]. split; [destruct l1; discriminate|discriminate].
      * intros ->. reflexivity.
      * intros b'. rewrite cached_erase. intros ->. apply andb_false_r.
Qed.

Ltac sm := cbn [file nblk mgr rpb nant cache stopF workers cur changed tb keyrow code mwait outs status closed last val faults
  set_code set_mwait set_status set_file set_mgr set_rpb set_threads set_buf set_key add_out set_closed set_last set_val add_fault
  notify app] in *.

Lemma put_buffer_ok {e} (s : state e) r row d s' : put_buffer s r row d = s' -> status s' = Running ->
  exists b v, s' = set_val (set_buf s (cur s) true b) v.
Proof.
  unfold put_buffer. destruct (SetData _ _ _ _ _ _); intros <-; sm; try discriminate. eauto.
Qed.

(** storing a block *)
Lemma inv_store {e} f0 (s : state e) c cc : inv f0 s -> code s = IStore :: c ->
  (length (cache s) < maxCache e)%nat -> cached (cache s) (cur s) = false ->
  (workers s <> [] -> stopF s = false) ->
  let s' := notify (set_last (set_buf (set_threads (set_code s cc) (insert (cur s) (tb s, false) (cache s)) (stopF s) (workers s)) (cur s) false [])
                                   (upd_map (last s) (cur s) (tb s))) in
  phase s' cc -> inv f0 s'.
Proof.
  intros I Hc Hmax Hcur St s' P. subst s'.
  destruct I as [I1 I2 I3 I4 I5 I6 I7 I8 I9 I10 I11 I12 I13].
  assert (Nb : ~ In (cur s) (busy (workers s))).
  { intros Hb. apply I4 in Hb. destruct Hb as (x & Hin). apply cached_false with (v := (x, true)) in Hcur. auto. }
  constructor; sm; rewrite ?busy_wake; trivial.
  - now apply insert_NoDup.
  - rewrite insert_length by trivial. lia.
  - intros b. rewrite I4. split; intros (x & Hx); exists x.
    + apply insert_In; auto.
    + apply insert_In in Hx; trivial. destruct Hx as [Hx|Hx]; [congruence|trivial].
  - intros b x Hin. apply wake_In in Hin. destruct Hin as (_ & [Hin|(Hx & _)]); [|discriminate]. apply insert_In; auto.
  - intros b x Hin HL. apply wake_In in Hin. destruct Hin as (_ & [Hin|(Hx & _)]); [|discriminate].
    assert (b <> cur s). { intros ->. apply Nb. apply busy_In. now right. }
    rewrite upd_map_other in HL by trivial. eauto.
  - intros b x w Hin. apply insert_In in Hin; trivial. destruct Hin as [Hx|Hin].
    + injection Hx as -> -> ->. apply upd_map_same.
    + assert (b <> cur s). { intros ->. apply cached_false with (v := (x, w)) in Hcur. auto. }
      rewrite upd_map_other by trivial. eauto.
  - intros b x HL HC. rewrite cached_insert in HC by trivial. apply orb_false_iff in HC. destruct HC as (HC1 & HC2).
    apply N.eqb_neq in HC1. rewrite upd_map_other in HL by trivial. eauto.
  - intros b HL. destruct (N.eq_dec b (cur s)) as [->|Hn]; [rewrite upd_map_same in HL; discriminate|].
    rewrite upd_map_other in HL by trivial. auto.
  - intros Hin. apply wake_In in Hin. tauto.
  - intros Hin. apply wake_In in Hin. destruct Hin as (_ & [Hin|(Hx & _)]); [auto|discriminate].
  - discriminate.
Qed.

Lemma load_status {e} (s : state e) junk b s' : load junk s b = s' -> status s' = Running ->
  exists t fl, s' = set_buf (State e (file s) (nblk s) (mgr s) (rpb s) (nant s) (cache s) (stopF s) (workers s)
  (cur s) (changed s) (tb s) (keyrow s) (code s) (mwait s) (outs s) (status s) (closed s) (last s) (val s) fl) b false t.
Proof.
  unfold load. destruct (cached (cache s) b); cbn zeta; sm; destruct (b <? nblk s); sm.
  all: try (destruct (file s b); [|destruct junk]); intros <- R; sm; try discriminate; do 2 eexists; reflexivity.
Qed.

Lemma wake_ne {A} (ws : list (wpc A)) : ws <> [] -> map wake ws <> [].
Proof. rewrite wake_nil. trivial. Qed.

(** setting the stop flag *)
Lemma inv_stop {e} f0 (s : state e) cc : inv f0 s -> cache s = [] ->
  let s' := notify (set_threads (set_code s cc) [] true (workers s)) in phase s' cc -> inv f0 s'.
Proof.
  intros I C s' P. subst s'. destruct I as [I1 I2 I3 I4 I5 I6 I7 I8 I9 I10 I11 I12 I13]. rewrite C in *.
  constructor; sm; rewrite ?busy_wake; trivial.
  - intros b x Hin. apply wake_In in Hin. destruct Hin as (_ & [Hin|(Hx & _)]); [eauto|discriminate].
  - intros b x Hin. apply wake_In in Hin. destruct Hin as (_ & [Hin|(Hx & _)]); [eauto|discriminate].
  - intros Hin. apply wake_In in Hin. tauto.
  - discriminate.
Qed.

Lemma inv_newthreads {e} f0 (s : state e) cc st ws : inv f0 s -> cache s = [] -> (forall w, In w ws -> w = WTop) ->
  mwait s = false -> let s' := set_threads (set_code s cc) (cache s) st ws in phase s' cc -> inv f0 s'.
Proof.
  intros I C W M s' P. subst s'. destruct I as [I1 I2 I3 I4 I5 I6 I7 I8 I9 I10 I11 I12 I13].
  assert (B : busy ws = []).
  { destruct (busy ws) as [|b l] eqn:E; trivial. assert (Hb : In b (busy ws)) by (rewrite E; now left).
    apply busy_In in Hb. destruct Hb as [(x & Hb)|Hb]; apply W in Hb; discriminate. }
  constructor; sm; trivial.
  - rewrite B. constructor.
  - rewrite B, C. intros b. split; [easy|]. intros (x & []).
  - intros b x Hin. apply W in Hin. discriminate.
  - intros b x Hin. apply W in Hin. discriminate.
  - intros Hin. apply W in Hin. discriminate.
  - intros Hin. apply W in Hin. discriminate.
  - congruence.
Qed.

Ltac loc f0 s := apply (inv_local f0 s); [reflexivity..|sm; congruence| |assumption].

Lemma ph_eq {e} (s : state e) c c' : phase s c' -> c' = c -> phase s c.
Proof. now intros P <-. Qed.
Tactic Notation "ph" uconstr(t) := eapply ph_eq; [eapply t; sm; auto|reflexivity].

Lemma inv_main {e} f0 (s s' : state e) junk i c :
  (nthreads e <> 0)%nat -> inv f0 s -> status s = Running -> code s = i :: c -> mwait s = false ->
  exec junk s i c = Some s' -> status s' = Running -> inv f0 s'.
Proof.
  intros NT I R Hc Mw E R'.
  pose proof (i_phase _ _ I) as P. rewrite Hc in P.
  assert (TT : repeat (@WTop (data e)) (nthreads e) <> []) by (destruct (nthreads e); [easy|discriminate]).
  inversion P; subst; clear P;
    try match goal with H : maybe_store ?st ++ _ = _ |- _ => destruct st eqn:Est; cbn [maybe_store app] in H; injection H as <- <- end;
    try match goal with H : base s |- _ => rename H into HB end; cbn [exec] in E.
  - destruct (N.eqb_spec (rpb s) 0) as [Z|Z].
    + destruct (Empty (tb s)); [|destruct (keys_differ e row (keyrow s))]; injection E as E.
      * apply put_buffer_ok in E; trivial. destruct E as (b & v & ->). loc f0 s. sm. constructor. exact HB.
      * subst s'. loc f0 s. sm. constructor; trivial. right. eauto.
      * apply put_buffer_ok in E; trivial. destruct E as (b & v & ->). loc f0 s. sm. constructor. exact HB.
    + injection E as <-. loc f0 s. sm. now constructor.
  - destruct (N.eqb_spec (rpb s) 0) as [Z|Z].
    + injection E as E. apply put_buffer_ok in E; trivial. destruct E as (b & v & ->). loc f0 s. sm. constructor. exact HB.
    + destruct (N.eqb_spec (row / rpb s) (cur s)) as [Q|Q]; injection E as <-.
      * loc f0 s. sm. ph (ph_set _ row d).
      * loc f0 s. sm. ph (ph_loadset _ (changed s) row d).
  - injection E as E. apply put_buffer_ok in E; trivial. destruct E as (b & v & ->). loc f0 s. sm. constructor. exact HB.
  - destruct ((maxCache e <=? length (cache s))%nat || cached (cache s) (cur s)) eqn:W; injection E as <-.
    + apply (inv_local f0 s); trivial; try reflexivity.
      * intros _. unfold blocked. sm. rewrite Hc. apply orb_true_iff in W. rewrite Nat.leb_le in W. exact W.
      * sm. rewrite Hc. ph (ph_loadset _ true row d).
    + apply orb_false_iff in W. destruct W as (W1 & W2). apply Nat.leb_gt in W1.
      eapply inv_store; eauto; [apply HB|]. ph (ph_loadset _ false row d).
      destruct HB as (B1 & B2 & B3 & B4 & B5). repeat split; sm; rewrite ?wake_nil; trivial; tauto.
  - injection E as E. apply load_status in E; trivial. destruct E as (t & fl & ->). loc f0 s. sm.
    ph (ph_set _ row d).
  - destruct (N.eqb_spec (rpb s) 0) as [Z|Z].
    + injection E as <-. loc f0 s. sm. now constructor.
    + destruct (nblk s <=? row / rpb s); injection E as <-; loc f0 s; sm; [now constructor|].
      ph (ph_waitnot _ row).
  - destruct (cached (cache s) (row / rpb s)) eqn:W; injection E as <-.
    + apply (inv_local f0 s); trivial; try reflexivity.
      * intros _. unfold blocked. sm. rewrite Hc. exact W.
      * sm. rewrite Hc. ph (ph_waitnot _ row).
    + loc f0 s. sm. ph (ph_getrow _ row).
  - destruct (N.eqb_spec (row / rpb s) (cur s)) as [Q|Q]; injection E as <-; loc f0 s; sm.
    + ph (ph_read _ row).
    + ph (ph_loadread _ (changed s) row).
  - destruct ((maxCache e <=? length (cache s))%nat || cached (cache s) (cur s)) eqn:W; injection E as <-.
    + apply (inv_local f0 s); trivial; try reflexivity.
      * intros _. unfold blocked. sm. rewrite Hc. apply orb_true_iff in W. rewrite Nat.leb_le in W. exact W.
      * sm. rewrite Hc. ph (ph_loadread _ true row).
    + apply orb_false_iff in W. destruct W as (W1 & W2). apply Nat.leb_gt in W1.
      eapply inv_store; eauto; [apply HB|]. ph (ph_loadread _ false row).
      * destruct HB as (B1 & B2 & B3 & B4 & B5). repeat split; sm; rewrite ?wake_nil; trivial; tauto.
      * rewrite cached_insert by trivial. apply orb_false_iff. split; trivial. apply N.eqb_neq. auto.
  - injection E as E. apply load_status in E; trivial. destruct E as (t & fl & ->). loc f0 s. sm.
    ph (ph_read _ row).
  - destruct (GetData (tb s) (N.to_nat (row mod rpb s))); injection E as <-; sm; try discriminate.
    loc f0 s. sm. now constructor.
  - injection E as <-. destruct HB as (B1 & B2 & B3 & B4 & B5). specialize (B4 H2).
    assert (X : forall s'', file s'' = file s -> cache s'' = cache s -> stopF s'' = stopF s -> workers s'' = workers s ->
      last s'' = last s -> mwait s'' = mwait s -> phase s'' (code s'') -> inv f0 s'').
    { intros s'' E1 E2 E3 E4 E5 E6 P. destruct B4 as (Q1 & Q2). destruct I as [I1 I2 I3 I4 I5 I6 I7 I8 I9 I10 I11 I12 I13].
      constructor; rewrite ?E1, ?E2, ?E3, ?E4, ?E5, ?E6; trivial.
      - intros b x _ L. rewrite Q2 in L. discriminate.
      - intros b x L. rewrite Q2 in L. discriminate.
      - congruence. }
    destruct ((N.of_nat (length (tb s)) <=? n) && negb (n =? 0)); apply X; sm; trivial; apply ph_initstop; sm; auto.
  - destruct H3 as (Q1 & Q2). rewrite Q1 in E. destruct (workers s) as [|w ws] eqn:Ew; injection E as <-.
    + loc f0 s. sm. apply ph_initstart; sm; trivial. now split.
    + rewrite <- Ew. apply inv_stop; trivial. apply ph_initjoin; sm; trivial; try now split. rewrite Ew. discriminate.
  - destruct (forallb _ (workers s)); [|discriminate]. injection E as <-.
    apply inv_newthreads; trivial; [apply H3|easy|]. apply ph_initstart; sm; trivial.
  - injection E as <-. apply inv_newthreads; trivial; [apply H3| |].
    + intros w. rewrite H4. cbn [app]. apply repeat_spec.
    + rewrite H4. cbn [app].
      assert (Bs : forall cc, base (set_threads (set_code s cc) (cache s) false (repeat WTop (nthreads e)))).
      { intros cc. repeat split; sm; trivial; apply H3. }
      destruct H5 as [->|(row & d & Hr & ->)]; constructor; trivial.
  - injection E as <-. destruct HB as (B1 & B2 & B3 & B4 & B5). loc f0 s. sm. apply ph_prepstop; sm; trivial.
  - destruct (workers s) as [|w ws] eqn:Ew.
    + assert (Z : rpb s = 0) by (destruct (N.eq_dec (rpb s) 0) as [|Z]; [trivial|now apply H5 in Z]).
      destruct (H4 Z) as (Q1 & Q2). rewrite Q1 in E. injection E as <-. loc f0 s. sm. apply ph_reset; sm; trivial.
    + destruct (cache s) as [|p ps] eqn:Cs; injection E as <-.
      * rewrite <- Ew. apply inv_stop; trivial. apply ph_prepjoin; sm; trivial.
        -- rewrite Ew. discriminate.
        -- intros Z. specialize (H4 Z). split; [trivial|apply H4].
      * apply (inv_local f0 s); trivial; try reflexivity.
        -- intros _. unfold blocked. sm. rewrite Hc, Cs, Ew. split; discriminate.
        -- sm. rewrite Hc. apply ph_prepstop; sm; rewrite ?Ew; trivial.
  - destruct (forallb _ (workers s)); [|discriminate]. injection E as <-.
    apply inv_newthreads; trivial; [easy|]. apply ph_reset; sm; trivial.
  - injection E as <-. destruct (changed s); loc f0 s; sm; apply ph_prepared; sm; trivial.
  - destruct (N.eqb_spec (rpb s) 0) as [Z|Z]; injection E as <-; loc f0 s; sm.
    + apply ph_unlock; sm; trivial; rewrite ?H3; easy.
    + apply ph_prepstop2; sm; trivial.
  - rewrite H3, H4 in E. injection E as <-. loc f0 s. sm. apply ph_prepstart; sm; trivial.
  - injection E as <-. apply inv_newthreads; trivial.
    + intros w. rewrite H3. cbn [app]. apply repeat_spec.
    + rewrite H3. cbn [app]. apply ph_unlock; sm; trivial. easy.
  - injection E as <-. loc f0 s. sm. constructor. repeat split; sm; trivial; apply H4; trivial.
  - injection E as <-. destruct HB as (B1 & B2 & B3 & B4 & B5). loc f0 s. sm. destruct (changed s) eqn:Ch.
    + apply ph_shutstore; sm; trivial.
    + apply ph_shutstop; sm; trivial.
  - destruct ((maxCache e <=? length (cache s))%nat || cached (cache s) (cur s)) eqn:W; injection E as <-.
    + apply (inv_local f0 s); trivial; try reflexivity.
      * intros _. unfold blocked. sm. rewrite Hc. apply orb_true_iff in W. rewrite Nat.leb_le in W. exact W.
      * sm. rewrite Hc. apply ph_shutstore; sm; auto.
    + apply orb_false_iff in W. destruct W as (W1 & W2). apply Nat.leb_gt in W1.
      eapply inv_store; eauto. apply ph_shutstop; sm; auto; rewrite wake_nil; trivial.
  - destruct (workers s) as [|w ws] eqn:Ew.
    + destruct (cache s) as [|p ps] eqn:Cs; injection E as <-; sm; [|discriminate]. loc f0 s. sm. apply ph_closed; sm; trivial.
    + destruct (cache s) as [|p ps] eqn:Cs; injection E as <-.
      * rewrite <- Ew. apply inv_stop; trivial. apply ph_shutjoin; sm; trivial. rewrite Ew. discriminate.
      * apply (inv_local f0 s); trivial; try reflexivity.
        -- intros _. unfold blocked. sm. rewrite Hc, Cs, Ew. split; discriminate.
        -- sm. rewrite Hc. apply ph_shutstop; sm; rewrite ?Ew; trivial.
  - destruct (forallb _ (workers s)); [|discriminate]. injection E as <-.
    apply inv_newthreads; trivial; [easy|]. apply ph_closed; sm; trivial.
Qed.
