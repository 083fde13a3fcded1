(** A new column written in row order. *)
From Verif Require Import Base BaseLemmas TimeBlockBuffer TbbSpec TbbProofs Column ColumnSpec ColumnProofs ColumnInv ColumnReach ColumnTerm ColumnData.
Local Open Scope N_scope.
Local Arguments busy : simpl never. Local Arguments upd : simpl never. Local Arguments insert : simpl never.
Local Arguments erase : simpl never. Local Arguments cached : simpl never. Local Arguments markWritten : simpl never.
Local Arguments maxCache : simpl never.

Lemma keys_same e r r' : keys_differ e r r' = false <-> same_keys e r r'.
Proof.
  unfold keys_differ, same_keys. rewrite !orb_false_iff, !negb_false_iff, !Z.eqb_eq. tauto.
Qed.

Lemma first_block_unique e n n' : first_block e n -> first_block e n' -> n = n'.
Proof.
  intros (A1 & A2 & A3) (B1 & B2 & B3). destruct (N.lt_trichotomy n n') as [L|[L|L]]; trivial.
  - now apply B2 in L.
  - now apply A2 in L.
Qed.

Lemma antenna_count_unique e n na na' : antenna_count e n na -> antenna_count e n na' -> na = na'.
Proof.
  intros (A1 & r & Hr & A2) (B1 & r' & Hr' & B2). pose proof (A1 _ Hr'). pose proof (B1 _ Hr). lia.
Qed.

Lemma order_reach {e} o D k (s : state e) : in_order o D k s -> reach (fresh e) s.
Proof.
  intros H. induction H as [|k s H IH R C0 C1 L|k s H IH R C0 C1|k s s' H IH St _|k n na s H IH R C0 C1 O Z L L2 Fn An].
  - constructor.
  - eapply reach_step; [exact IH|]. now apply step_call.
  - eapply reach_step; [exact IH|]. now apply step_call.
  - eapply reach_step; eauto.
  - eapply reach_step; [exact IH|]. now apply step_call.
Qed.

Section order.
Context {e : env} (o : Prop) (D : N -> list (data e)) (HD : forall r, (nSamp e <= length (D r))%nat).

(** the first [m] rows are in the buffer, the block size is unknown *)
Definition filled (m : N) (t : tbb (data e)) : Prop :=
  length t = N.to_nat m /\
  forall r, r < m -> nth_error t (N.to_nat r) = Some (DRow (fst (ants e r)) (snd (ants e r)) (firstn (nSamp e) (D r))).

Lemma filled_set m t b : filled m t -> SetData (nSamp e) t (N.to_nat m) (fst (ants e m)) (snd (ants e m)) (D m) = Ok b -> filled (m + 1) b.
Proof.
  intros (L & F) E. pose proof (set_this _ _ _ _ _ _ _ E) as T.
  destruct (set_ok (nSamp e) t (N.to_nat m) (fst (ants e m)) (snd (ants e m)) (D m) (HD m)) as (b' & E' & Lb & _).
  rewrite E in E'. injection E' as <-. split; [lia|]. intros r Hr. destruct (N.eq_dec r m) as [->|Hn]; [trivial|].
  eapply set_other; eauto; [lia|]. apply F. lia.
Qed.

Lemma filled_count m t : filled m t -> 0 < m -> antenna_count e m (MaxAntennaIndex t + 1).
Proof.
  intros (L & F) Hm. destruct (max_fold t 0) as (_ & M2 & M3). fold (MaxAntennaIndex t) in *. split.
  - intros r Hr. specialize (F r Hr). apply nth_error_In in F. apply M2 in F. cbn in F. lia.
  - assert (X : forall rw, In rw t -> exists r, r < m /\ antenna1 rw = fst (ants e r) /\ antenna2 rw = snd (ants e r)).
    { intros rw Hin. apply In_nth_error in Hin. destruct Hin as (k & Hk).
      assert (k < length t)%nat by (apply nth_error_Some; congruence).
      specialize (F (N.of_nat k) ltac:(lia)). rewrite Nat2N.id in F. exists (N.of_nat k). split; [lia|].
      rewrite Hk in F. injection F as ->. now split. }
    destruct M3 as [M3|(rw & Hin & M3)].
    + rewrite M3. specialize (F 0 ltac:(lia)). apply nth_error_In in F. pose proof (M2 _ F) as M. rewrite M3 in M. cbn in M.
      exists 0. split; [lia|]. lia.
    + destruct (X rw Hin) as (r & Hr & E1 & E2). exists r. split; trivial. lia.
Qed.

(** before the block size is known *)
Definition ordA (k : N) (s : state e) : Prop :=
  exists m, rpb s = 0 /\ workers s = [] /\ faults s = [] /\ (forall r, r < m -> same_keys e r 0) /\
  (((cache s = [] /\ cur s = (if m =? 0 then noBlock else 0) /\ changed s = negb (m =? 0) /\ filled m (tb s) /\ (m <> 0 -> keyrow s = 0)) /\
    ((code s = [] /\ closed s = false /\ k = m) \/ (code s = [IPut m (D m)] /\ closed s = false /\ k = m + 1) \/
     (code s = [ISetRpb m (MaxAntennaIndex (tb s) + 1); IStop; IStart; IPutRow m (D m)] /\ closed s = false /\ k = m + 1 /\ m <> 0 /\ ~ same_keys e m 0) \/
     (code s = [IShutdown] /\ closed s = false /\ k = m) \/ (code s = [IStore; IStop] /\ closed s = true /\ k = m /\ m <> 0) \/
     (code s = [IStop] /\ closed s = true /\ k = 0 /\ m = 0) \/ (code s = [] /\ closed s = true /\ k = 0 /\ m = 0))) \/
   (code s = [IStop] /\ closed s = true /\ cache s <> [] /\ changed s = false /\ k = m /\ m <> 0)).

Definition row_ok (na : nat) (rw : drow (data e)) : Prop :=
  length (visibilities rw) = nSamp e /\ (af e = true -> (antenna1 rw < na)%nat /\ (antenna2 rw < na)%nat).

Lemma rows_encodable n na (t : tbb (data e)) : (length t <= N.to_nat n)%nat -> Forall (row_ok na) t -> encodable e n na t = true.
Proof.
  intros L F. unfold encodable. apply andb_true_iff. split; [apply N.leb_le; lia|]. apply forallb_forall. intros rw Hin.
  rewrite Forall_forall in F. destruct (F rw Hin) as (F1 & F2). apply andb_true_iff. split; [now apply Nat.eqb_eq|].
  destruct (af e); trivial. cbn. destruct (F2 eq_refl). apply andb_true_iff. split; now apply Nat.ltb_lt.
Qed.

(** [x] contains row [r], as put *)
Definition holds (n r : N) (x : tbb (data e)) : Prop :=
  exists rw, nth_error x (N.to_nat (r mod n)) = Some rw /\ visibilities rw = firstn (nSamp e) (D r).

(** the block size is known, [m] rows were put: what the calling thread has to do *)
Definition starting (s : state e) : Prop := code s = [IStop; IStart] \/ code s = [IJoin; IStart] \/ code s = [IStart].

Definition codesB (k n m : N) (s : state e) : Prop :=
  (closed s = false /\ changed s = true /\ cur s = (m - 1) / n /\ m <> 0 /\
    ((code s = [] /\ k = m) \/
     (k = m + 1 /\ (code s = [IPut m (D m)] \/ code s = [IPutRow m (D m)] \/ 
                    code s = [IStop; IStart; IPutRow m (D m)] \/ code s = [IJoin; IStart; IPutRow m (D m)] \/ code s = [IStart; IPutRow m (D m)])) \/
     (k = m + 1 /\ m mod n <> 0 /\ code s = [ISet (m mod n) m (D m)]) \/
     (k = m + 1 /\ m mod n = 0 /\ code s = [IStore; ILoad (m / n); ISet (m mod n) m (D m)]) \/
     (k = m /\ code s = [IShutdown]) \/
     (k = m /\ starting s))) \/
  (closed s = false /\ changed s = false /\ k = m + 1 /\ m mod n = 0 /\
    ((code s = [ILoad (m / n); ISet (m mod n) m (D m)] /\ tb s = []) \/
     (code s = [ISet (m mod n) m (D m)] /\ cur s = m / n))) \/
  (closed s = true /\ k = m /\
    ((changed s = true /\ cur s = (m - 1) / n /\ m <> 0 /\ code s = [IStore; IStop]) \/ (changed s = false /\ (code s = [IStop] \/ code s = [IJoin] \/ code s = [])))) \/
  (closed s = false /\ changed s = false /\ m = 0 /\ cur s = noBlock /\ tb s = [] /\
    ((k = 0 /\ (code s = [] \/ code s = [IShutdown] \/ starting s)) \/ (k = 1 /\ (code s = [IPut 0 (D 0)] \/ code s = [IPutRow 0 (D 0)])))).

Definition ordB (k : N) (s : state e) : Prop :=
  exists n na m, (n < k \/ o /\ n < 2 ^ 32) /\ first_block e n /\ antenna_count e n na /\ rpb s = n /\ nant s = na /\ faults s = [] /\ m <= k /\
  (forall r, r < m -> (changed s = true /\ cur s = r / n /\ holds n r (tb s)) \/
                      ((changed s = false \/ cur s <> r / n) /\ exists x, last s (r / n) = Some x /\ holds n r x)) /\
  (forall b, last s b <> None -> b * n < m) /\
  (length (tb s) <= N.to_nat n)%nat /\
  ((forall r, af e = true -> (fst (ants e r) < na)%nat /\ (snd (ants e r) < na)%nat) ->
     Forall (row_ok na) (tb s) /\ forall b x, last s b = Some x -> encodable e n na x = true) /\
  codesB k n m s.

(** another column found the block size *)
Definition ordO (k : N) (s : state e) : Prop :=
  o /\ exists n na, first_block e n /\ antenna_count e n na /\ k <= n < 2 ^ 32 /\ rpb s = 0 /\ workers s = [] /\ faults s = [] /\
  cache s = [] /\ cur s = (if k =? 0 then noBlock else 0) /\ changed s = negb (k =? 0) /\ filled k (tb s) /\
  code s = [ISetRpb n na; IStop; IStart] /\ closed s = false.

Definition ord (k : N) (s : state e) : Prop := ordA k s \/ ordB k s \/ ordO k s.

Lemma ordA_ext k s s' : ordA k s -> rpb s' = rpb s -> workers s' = workers s -> faults s' = faults s -> cache s' = cache s -> cur s' = cur s ->
  changed s' = changed s -> tb s' = tb s -> keyrow s' = keyrow s -> code s' = code s -> closed s' = closed s -> ordA k s'.
Proof.
  intros (m & H) E1 E2 E3 E4 E5 E6 E7 E8 E9 E10. exists m. rewrite E1, E2, E3, E4, E5, E6, E7, E8, E9, E10. exact H.
Qed.

Lemma ordB_ext k s s' : ordB k s -> rpb s' = rpb s -> nant s' = nant s -> faults s' = faults s -> cur s' = cur s ->
  changed s' = changed s -> tb s' = tb s -> last s' = last s -> code s' = code s -> closed s' = closed s -> ordB k s'.
Proof.
  intros (n & na & m & H) E1 E2 E3 E4 E5 E6 E7 E8 E9. exists n, na, m. unfold codesB, starting in *. rewrite E1, E2, E3, E4, E5, E6, E7, E8, E9. exact H.
Qed.

Lemma ordO_ext k s s' : ordO k s -> rpb s' = rpb s -> workers s' = workers s -> faults s' = faults s -> cache s' = cache s -> cur s' = cur s ->
  changed s' = changed s -> tb s' = tb s -> code s' = code s -> closed s' = closed s -> ordO k s'.
Proof. intros H E1 E2 E3 E4 E5 E6 E7 E8 E9. unfold ordO in *. now rewrite E1, E2, E3, E4, E5, E6, E7, E8, E9. Qed.

Lemma ord_worker k (s : state e) j w y s1 w1 : ord k s -> nth_error (workers s) j = Some w -> wexec y s w = Some (s1, w1) ->
  ord k (set_worker s1 j w1).
Proof.
  intros [(m & _ & W & _)|[B|(_ & n & na & _ & _ & _ & _ & W & _)]] H E; [rewrite W in H; destruct j; discriminate| |rewrite W in H; destruct j; discriminate]. right. left.
  apply (ordB_ext k s); trivial;
  (destruct w as [| | |b x|b|]; cbn [wexec] in E; unfold pick in E;
      repeat match type of E with
      | (if ?b then _ else _) = Some _ => destruct b
      | match match ?b with _ => _ end with _ => _ end = Some _ => destruct b
      | match ?b with _ => _ end = Some _ => destruct b
      end; try discriminate; injection E as <- <-; reflexivity).
Qed.

Lemma div_pred n m : n <> 0 -> m mod n = 0 -> m <> 0 -> (m - 1) / n = m / n - 1 /\ 0 < m / n.
Proof.
  intros Z H L. pose proof (N.div_mod m n Z) as E. assert (Q : 0 < m / n) by nia. split; trivial. assert (Ln : n <= m) by nia.
  symmetry. apply (N.div_unique _ _ _ (n - 1)); [lia|]. rewrite H in E. rewrite N.mul_sub_distr_l. generalize dependent (n * (m / n)). intros a E. clear H Q. lia.
Qed.

Lemma div_pred2 n m : n <> 0 -> m mod n <> 0 -> (m - 1) / n = m / n.
Proof.
  intros Z H. pose proof (N.div_mod m n Z) as E. pose proof (N.mod_lt m n Z). symmetry. apply (N.div_unique _ _ _ (m mod n - 1)); [lia|]. remember (n * (m / n)) as a. remember (m mod n) as c. clear Heqa Heqc. lia.
Qed.

Lemma ordA_main k (s s' : state e) junk i c : ordA k s -> inv (fun _ => None) s -> code s = i :: c -> exec junk s i c = Some s' ->
  status s' = Running -> ord k s'.
Proof.
  intros (m & R0 & W0 & F0 & K0 & H) I Hc E R.
  destruct H as [((C0 & Cu & Ch & Fi & Ky) & [H|[H|[H|[H|[H|[H|H]]]]]])|H]; destruct H as (H & Cl & Hk); rewrite Hc in H; try discriminate.
  - injection H as -> ->. cbn [exec] in E. rewrite R0 in E. cbn [N.eqb] in E. subst k. left.
    assert (P : forall s1, put_buffer s1 m m (D m) = s' -> tb s1 = tb s ->
      exists b, SetData (nSamp e) (tb s) (N.to_nat m) (fst (ants e m)) (snd (ants e m)) (D m) = Ok b /\ filled (m + 1) b /\
        s' = set_val (set_buf s1 (cur s1) true b) (upd_map (val s1) m (firstn (nSamp e) (D m)))).
    { intros s1 Es Et. unfold put_buffer in Es. rewrite Et in Es.
      destruct (set_ok (nSamp e) (tb s) (N.to_nat m) (fst (ants e m)) (snd (ants e m)) (D m) (HD m)) as (b & Eb & _).
      rewrite Eb in Es. exists b. split; trivial. split; [eapply filled_set; eauto|]. now symmetry. }
    assert (Nz : m + 1 =? 0 = false) by (apply N.eqb_neq; lia).
    destruct (Empty (tb s)) eqn:Em.
    + assert (m = 0). { destruct Fi as (L & _). destruct (tb s); [cbn in L; lia|discriminate]. } subst m.
      injection E as E. apply P in E; [|reflexivity]. destruct E as (b & _ & Fb & ->). exists 1. sm.
      split; [exact R0|]. split; [exact W0|]. split; [exact F0|]. split.
      * intros r Hr. assert (r = 0) by lia. subst r. now repeat split.
      * left. split; [|now left]. repeat split; try apply Fb; trivial.
    + assert (Hm : m <> 0). { intros ->. destruct Fi as (L & _). destruct (tb s); [discriminate|]. cbn in L. lia. }
      destruct (keys_differ e m (keyrow s)) eqn:Kd; injection E as E.
      * subst s'. exists m. sm. rewrite (Ky Hm) in Kd.
        assert (~ same_keys e m 0) by (intros Q; apply keys_same in Q; congruence).
        repeat (split; [trivial|]). left. split; [repeat split; try apply Fi; trivial|]. right. right. left. now repeat split.
      * apply P in E; [|reflexivity]. destruct E as (b & _ & Fb & ->). exists (m + 1). sm. rewrite (Ky Hm) in *. rewrite Nz.
        apply N.eqb_neq in Hm. rewrite Hm in *.
        split; [exact R0|]. split; [exact W0|]. split; [exact F0|]. split.
        -- intros r Hr. destruct (N.eq_dec r m) as [->|]; [now apply keys_same|apply K0; lia].
        -- left. split; [|now left]. repeat split; try apply Fb; trivial.
  - destruct Hk as (-> & Hm & Hs). injection H as -> ->. cbn [exec] in E. injection E as E. right. left.
    destruct Fi as (L & Fi). rewrite L, N2Nat.id, N.leb_refl in E. pose proof Hm as Hm'. apply N.eqb_neq in Hm'. rewrite Hm' in E. cbn in E. subst s'.
    rewrite Hm' in *. cbn in Ch.
    assert (Ql : forall b, last s b = None).
    { pose proof (i_phase _ _ I) as P. rewrite Hc in P. inversion P; subst; try (destruct (changed s); discriminate).
      match goal with B : base s |- _ => apply B; trivial end. }
    exists m, (MaxAntennaIndex (tb s) + 1)%nat, m. sm.
    assert (A : antenna_count e m (MaxAntennaIndex (tb s) + 1)) by (apply filled_count; [now split|lia]).
    split; [lia|]. split; [repeat split; trivial; try lia; now apply K0|]. split; [trivial|]. repeat (split; [trivial; lia|]).
    split. { intros r Hr. left. split; trivial. rewrite N.div_small by trivial. split; trivial. unfold holds. rewrite N.mod_small by trivial.
      eexists. split; [now apply Fi|reflexivity]. }
    split. { intros b Hb. now rewrite Ql in Hb. }
    split; [lia|]. split.
    { intros _. split; [|intros b x Hb; now rewrite Ql in Hb]. apply Forall_forall. intros rw Hin. apply In_nth_error in Hin. destruct Hin as (j & Hj).
      assert (j < length (tb s))%nat by (apply nth_error_Some; congruence).
      specialize (Fi (N.of_nat j) ltac:(lia)). rewrite Nat2N.id, Hj in Fi. injection Fi as ->. split; cbn.
      - rewrite firstn_length. pose proof (HD (N.of_nat j)). lia.
      - intros _. apply A. lia. }
    left. split; trivial. split; trivial. split; [rewrite N.div_small by lia; trivial|]. split; trivial. right. left. split; trivial. sm. tauto.
  - injection H as -> ->. cbn [exec] in E. injection E as <-. left. exists m. sm. subst k.
    repeat (split; [trivial|]). left. split; [repeat split; try apply Fi; trivial|].
    rewrite Ch. destruct (N.eqb_spec m 0) as [->|Hm]; cbn [negb app]; tauto.
  - injection H as -> ->. cbn [exec] in E. rewrite C0 in E.
    assert (X : (maxCache e <=? length (@nil (N * (tbb (data e) * bool))))%nat || cached (@nil (N * (tbb (data e) * bool))) (cur s) = false).
    { unfold maxCache. cbn [length]. destruct (Nat.leb_spec (nthreads e * 12 / 10 + 1) 0); [lia|reflexivity]. }
    rewrite X in E. injection E as <-. left. exists m. unfold notify. sm. rewrite W0. destruct Hk as (-> & Hm).
    repeat (split; [trivial|]). right. split; trivial. split; trivial. split; [discriminate|]. tauto.
  - injection H as -> ->. cbn [exec] in E. rewrite W0, C0 in E. injection E as <-. left. exists m. sm.
    repeat (split; [trivial|]). left. split; [repeat split; try apply Fi; trivial|]. tauto.
  - injection H as -> ->. cbn [exec] in E. rewrite W0 in E. destruct (cache s); [tauto|]. injection E as <-. sm. discriminate.
Qed.


Definition common k (s : state e) n na m : Prop :=
  (n < k \/ o /\ n < 2 ^ 32) /\ first_block e n /\ antenna_count e n na /\ rpb s = n /\ nant s = na /\ faults s = [] /\ m <= k.

Lemma ordB_set k (s s' : state e) n na m s1 : common k s n na m -> n <> 0 ->
  (forall r, r < m -> (changed s = true /\ cur s = r / n /\ holds n r (tb s)) \/
                      ((changed s = false \/ cur s <> r / n) /\ exists x, last s (r / n) = Some x /\ holds n r x)) ->
  (forall b, last s b <> None -> b * n < m) ->
  (length (tb s) <= N.to_nat n)%nat ->
  ((forall r, af e = true -> (fst (ants e r) < na)%nat /\ (snd (ants e r) < na)%nat) ->
     Forall (row_ok na) (tb s) /\ forall b x, last s b = Some x -> encodable e n na x = true) ->
  closed s = false -> k = m + 1 -> cur s = m / n -> (changed s = true \/ m mod n = 0) -> s1 = set_code s [] ->
  put_buffer s1 (m mod n) m (D m) = s' -> ordB k s'.
Proof.
  intros (A0 & A1 & A2 & A3 & A4 & A5 & A6) Zn Rw Lb Lt Ok Cl -> Cu Ch -> E.
  unfold put_buffer in E. sm.
  destruct (set_ok (nSamp e) (tb s) (N.to_nat (m mod n)) (fst (ants e m)) (snd (ants e m)) (D m) (HD m)) as (b & Eb & Lnb & Rb & Ob).
  rewrite Eb in E. subst s'. pose proof (N.mod_lt m n Zn) as Lm.
  exists n, na, (m + 1). unfold codesB. sm. split; [trivial|]. split; [trivial|]. split; [trivial|]. split; [trivial|]. split; [trivial|]. split; [trivial|]. split; [lia|].
  split.
  { intros r Hr. destruct (N.eq_dec r m) as [->|Hn].
    - left. split; trivial. split; trivial. eexists. split; [eapply set_this; exact Eb|reflexivity].
    - destruct (Rw r ltac:(lia)) as [(H1 & H2 & rw & H3 & H4)|(H1 & x & H2 & H3)].
      + left. split; trivial. split; trivial. exists rw. split; trivial. eapply set_other; eauto.
        pose proof (N.div_mod m n Zn) as E1. pose proof (N.div_mod r n Zn) as E2. rewrite <- H2, Cu in E2. intros Q. lia.
      + right. split; [|eauto]. right. destruct H1 as [H1|H1]; trivial. destruct Ch as [Ch|Ch]; [congruence|].
        rewrite Cu. pose proof (N.div_mod m n Zn) as E1. pose proof (N.div_mod r n Zn) as E2. rewrite Ch in E1. intros Q. rewrite <- Q in E2.
        assert (r < m) by lia. remember (n * (m / n)) as a. remember (r mod n) as c. clear - E1 E2 H. lia. }
  split. { intros b' Hb. apply Lb in Hb. lia. }
  split; [lia|]. split.
  { intros An. destruct (Ok An) as (O1 & O2). split; trivial. apply Forall_forall. intros rw Hin. apply In_nth_error in Hin. destruct Hin as (j & Hj).
    destruct (Nat.eq_dec j (N.to_nat (m mod n))) as [->|Hn].
    - unfold row_at in Rb. rewrite Hj in Rb. subst rw. split; cbn; [|auto]. rewrite firstn_length. pose proof (HD m). lia.
    - specialize (Ob j Hn). unfold row_at in Ob. rewrite Hj in Ob.
      assert (j < length b)%nat by (apply nth_error_Some; congruence).
      destruct (nth_error (tb s) j) as [rw'|] eqn:Ej; [subst rw; rewrite Forall_forall in O1; apply O1; eapply nth_error_In; eauto|].
      exfalso. apply nth_error_None in Ej. assert (Hm : (N.to_nat (m mod n) <> 0)%nat) by lia. 
      destruct Ch as [Ch|Ch]; [|lia]. 
      (* row m - 1 is in the buffer *)
      assert (Q : m mod n <> 0) by lia. pose proof (div_pred2 n m Zn Q) as Dp. pose proof (N.div_mod m n Zn) as E1.
      assert (Hm1 : m - 1 < m) by lia. destruct (Rw (m - 1) Hm1) as [(_ & _ & rw' & H3 & _)|([X|X] & _)]; [|congruence..].
      assert (Hmod : (m - 1) mod n = m mod n - 1).
      { symmetry. apply (N.mod_unique _ _ (m / n)); [lia|]. remember (n * (m / n)) as a. remember (m mod n) as c. clear - E1 Q. lia. }
      assert (N.to_nat ((m - 1) mod n) < length (tb s))%nat by (apply nth_error_Some; congruence). rewrite Hmod in *. lia. }
  left. split; trivial. split; trivial. split; [replace (m + 1 - 1) with m by lia; trivial|]. split; [lia|]. left. now split.
Qed.

Lemma ordB_store k (s : state e) n na m cc : common k s n na m -> n <> 0 -> changed s = true ->
  (forall r, r < m -> (changed s = true /\ cur s = r / n /\ holds n r (tb s)) \/
                      ((changed s = false \/ cur s <> r / n) /\ exists x, last s (r / n) = Some x /\ holds n r x)) ->
  (forall b, last s b <> None -> b * n < m) -> cur s * n < m ->
  (length (tb s) <= N.to_nat n)%nat ->
  ((forall r, af e = true -> (fst (ants e r) < na)%nat /\ (snd (ants e r) < na)%nat) ->
     Forall (row_ok na) (tb s) /\ forall b x, last s b = Some x -> encodable e n na x = true) ->
  let s' := notify (set_last (set_buf (set_threads (set_code s cc) (insert (cur s) (tb s, false) (cache s)) (stopF s) (workers s)) (cur s) false [])
                                   (upd_map (last s) (cur s) (tb s))) in
  common k s' n na m /\
  (forall r, r < m -> (changed s' = true /\ cur s' = r / n /\ holds n r (tb s')) \/
                      ((changed s' = false \/ cur s' <> r / n) /\ exists x, last s' (r / n) = Some x /\ holds n r x)) /\
  (forall b, last s' b <> None -> b * n < m) /\
  (length (tb s') <= N.to_nat n)%nat /\
  ((forall r, af e = true -> (fst (ants e r) < na)%nat /\ (snd (ants e r) < na)%nat) ->
     Forall (row_ok na) (tb s') /\ forall b x, last s' b = Some x -> encodable e n na x = true).
Proof.
  intros Cm Zn Ch Rw Lb Lc Lt Ok s'. subst s'. unfold notify. sm. split; [exact Cm|]. split.
  { intros r Hr. right. split; [now left|]. destruct (Rw r Hr) as [(H1 & H2 & H3)|(H1 & x & H2 & H3)].
    - exists (tb s). rewrite <- H2, upd_map_same. now split.
    - destruct H1 as [H1|H1]; [congruence|]. exists x. rewrite upd_map_other by auto. now split. }
  split. { intros b Hb. destruct (N.eq_dec b (cur s)) as [->|Hn]; trivial. rewrite upd_map_other in Hb by trivial. auto. }
  split; [cbn; lia|]. intros An. destruct (Ok An) as (O1 & O2). split; [constructor|]. intros b x Hb.
  unfold upd_map in Hb. destruct (N.eqb_spec b (cur s)); [|eauto]. injection Hb as <-. now apply rows_encodable.
Qed.

Lemma ordB_main k (s s' : state e) junk i c : ordB k s -> inv (fun _ => None) s -> code s = i :: c -> exec junk s i c = Some s' -> junk_ok s junk ->
  status s' = Running -> ordB k s'.
Proof.
  intros (n & na & m & Nk & A1 & A2 & A3 & A4 & A5 & A6 & Rw & Lb & Lt & Ok & H) I Hc E J R.
  assert (Zn : n <> 0) by (destruct A1; lia).
  assert (Cm : common k s n na m) by (repeat (split; trivial)).
  assert (Keep : forall t, cur t = cur s -> changed t = changed s -> tb t = tb s -> last t = last s -> rpb t = rpb s -> nant t = nant s -> faults t = faults s ->
    codesB k n m t -> ordB k t).
  { intros t E1 E2 E3 E4 E5 E6 E7 Ht. exists n, na, m. rewrite E5, E6, E7, E4. split; [trivial|]. split; [trivial|]. split; [trivial|]. split; [trivial|].
    split; [trivial|]. split; [trivial|]. split; [trivial|]. rewrite <- E1, <- E2, <- E3 in Rw. rewrite <- E3 in Lt, Ok.
    split; [exact Rw|]. split; [exact Lb|]. split; [exact Lt|]. split; [exact Ok|]. exact Ht. }
  assert (Lc : cur s = (m - 1) / n -> m <> 0 -> cur s * n < m).
  { intros -> Hm. pose proof (N.mul_div_le (m - 1) n Zn). lia. }
  pose proof (i_phase _ _ I) as P. rewrite Hc in P.
  assert (Start : starting s -> starting s' /\ cur s' = cur s /\ changed s' = changed s /\ tb s' = tb s /\ last s' = last s /\ rpb s' = rpb s /\ nant s' = nant s /\ faults s' = faults s /\ closed s' = closed s \/
      code s' = [] /\ cur s' = cur s /\ changed s' = changed s /\ tb s' = tb s /\ last s' = last s /\ rpb s' = rpb s /\ nant s' = nant s /\ faults s' = faults s /\ closed s' = closed s).
  { intros [H0|[H0|H0]]; rewrite Hc in H0; injection H0 as -> ->; cbn [exec] in E.
    - assert (cache s = []) as C0 by (inversion P; subst; try (destruct (changed s); discriminate); unfold quiet in *; tauto).
      rewrite C0 in E. destruct (workers s); injection E as <-; left; unfold starting; unfold notify; sm; tauto.
    - destruct (forallb _ _); [|discriminate]. injection E as <-. left. unfold starting. sm. tauto.
    - injection E as <-. right. sm. tauto. }
  unfold codesB in Keep.
  destruct H as [(Cl & Ch & Cu & Hm & H)|[(Cl & Ch & -> & Mz & H)|[(Cl & -> & H)|(Cl & Ch & -> & Cu & T0 & H)]]].
  - destruct H as [(H & _)|[(-> & H)|[(-> & Mz & H)|[(-> & Mz & H)|[(-> & H)|(-> & H)]]]]]; [congruence|..].
    + destruct H as [H|[H|[H|[H|H]]]]; rewrite Hc in H; injection H as -> ->; cbn [exec] in E.
      * rewrite A3 in E. apply N.eqb_neq in Zn. rewrite Zn in E. injection E as <-. apply Keep; trivial. sm. tauto.
      * rewrite A3 in E. pose proof Zn as Zn'. apply N.eqb_neq in Zn'. rewrite Zn' in E. destruct (N.eqb_spec (m / n) (cur s)) as [Q|Q]; injection E as <-; apply Keep; trivial; sm.
        -- left. split; trivial. split; trivial. split; trivial. split; trivial. right. right. left. split; trivial. split; trivial.
           intros Mz. destruct (div_pred n m Zn Mz Hm) as (D1 & D2). rewrite Cu, D1 in Q. lia.
        -- left. split; trivial. split; trivial. split; trivial. split; trivial. right. right. right. left. rewrite Ch. split; trivial. split; trivial.
           destruct (N.eq_dec (m mod n) 0) as [|Mz]; trivial. rewrite Cu, (div_pred2 n m Zn Mz) in Q. congruence.
      * assert (cache s = []) as C0 by (inversion P; subst; try (destruct (changed s); discriminate); unfold quiet in *; tauto).
        rewrite C0 in E. destruct (workers s); injection E as <-; apply Keep; trivial; sm; tauto.
      * destruct (forallb _ _); [|discriminate]. injection E as <-. apply Keep; trivial. sm. tauto.
      * injection E as <-. apply Keep; trivial. sm. tauto.
    + rewrite Hc in H. injection H as -> ->. cbn [exec] in E. injection E as E.
      eapply (ordB_set (m + 1) s s' n na m); eauto. rewrite Cu. now apply div_pred2.
    + rewrite Hc in H. injection H as -> ->. cbn [exec] in E.
      destruct (_ || _); injection E as <-; [apply Keep; trivial; sm; rewrite Hc; tauto|].
      destruct (ordB_store (m + 1) s n na m [ILoad (m / n); ISet (m mod n) m (D m)] Cm Zn Ch Rw Lb (Lc Cu Hm) Lt Ok) as ((B0 & B1 & B2 & B3 & B4 & B5 & B6) & B7 & B8 & B9 & B10).
      exists n, na, m. repeat (split; [assumption|]). right. left. unfold notify. sm. tauto.
    + rewrite Hc in H. injection H as -> ->. cbn [exec] in E. injection E as <-. apply Keep; trivial. sm. rewrite Ch. cbn. tauto.
    + destruct (Start H) as [(S1 & S2 & S3 & S4 & S5 & S6 & S7 & S8 & S9)|(S1 & S2 & S3 & S4 & S5 & S6 & S7 & S8 & S9)]; apply Keep; trivial; left; rewrite S2, S3, S9; tauto.
  - destruct H as [(H & T0)|(H & Cu)]; rewrite Hc in H; injection H as -> ->; cbn [exec] in E.
    + injection E as E. pose proof (N.div_mod m n Zn) as Em. rewrite Mz, N.add_0_r in Em.
      assert (Ln : last s (m / n) = None). { destruct (last s (m / n)) eqn:Q; trivial. assert (X : last s (m / n) <> None) by congruence. apply Lb in X. nia. }
      assert (Cn : cached (cache s) (m / n) = false).
      { destruct (cached (cache s) (m / n)) eqn:Q; trivial. apply cached_In in Q. destruct Q as ((x & w) & Q). apply (i_last _ _ I) in Q. congruence. }
      assert (Fn : file s (m / n) = None) by (now apply (i_file _ _ I)).
      assert (X : exists t, s' = set_buf (set_code s [ISet (m mod n) m (D m)]) (m / n) false t /\ (length t <= N.to_nat n)%nat /\
         ((forall r, af e = true -> (fst (ants e r) < na)%nat /\ (snd (ants e r) < na)%nat) -> Forall (row_ok na) t)).
      { unfold load in E. sm. rewrite Cn in E. cbn zeta in E. sm. rewrite Fn in E. destruct (_ <? _).
        - destruct junk as [rows|]; [|subst s'; sm; discriminate]. eexists. split; [symmetry; exact E|]. destruct J as (J1 & J2).
          unfold decoded. split.
          + rewrite map_length, combine_length, seq_length. lia.
          + intros An. apply Forall_forall. intros rw Hin. apply in_map_iff in Hin. destruct Hin as ((j & v) & <- & Hin).
            apply in_combine_r in Hin. rewrite Forall_forall in J2. split; cbn; [now apply J2|]. intros Af. now apply An.
        - eexists. split; [symmetry; exact E|]. rewrite T0. split; [cbn; lia|constructor]. }
      destruct X as (t & -> & Lt' & Ft).
      exists n, na, m. unfold codesB. sm. split; [trivial|]. split; [trivial|]. split; [trivial|]. split; [trivial|].
      split; [trivial|]. split; [trivial|]. split; [trivial|]. split.
      { intros r Hr. right. split; [now left|]. destruct (Rw r Hr) as [(H1 & _)|(_ & H2)]; [congruence|trivial]. }
      split; [trivial|]. split; [trivial|]. split. { intros An. split; [now apply Ft|now apply Ok]. }
      right. left. tauto.
    + injection E as E. eapply (ordB_set (m + 1) s s' n na m); eauto.
  - destruct H as [(Ch & Cu & Hm & H)|(Ch & H)].
    + rewrite Hc in H. injection H as -> ->. cbn [exec] in E.
      destruct (_ || _); injection E as <-; [apply Keep; trivial; sm; rewrite Hc; tauto|].
      destruct (ordB_store m s n na m [IStop] Cm Zn Ch Rw Lb (Lc Cu Hm) Lt Ok) as ((B0 & B1 & B2 & B3 & B4 & B5 & B6) & B7 & B8 & B9 & B10).
      exists n, na, m. repeat (split; [assumption|]). right. right. left. unfold notify. sm. tauto.
    + destruct H as [H|[H|H]]; rewrite Hc in H; [..|discriminate]; injection H as -> ->; cbn [exec] in E.
      * destruct (workers s); destruct (cache s); injection E as <-; apply Keep; trivial; sm; rewrite ?Hc; tauto.
      * destruct (forallb _ _); [|discriminate]. injection E as <-. apply Keep; trivial. sm. tauto.
  - destruct H as [(-> & [H|[H|H]])|(-> & [H|H])]; [congruence|..].
    + rewrite Hc in H. injection H as -> ->. cbn [exec] in E. injection E as <-. apply Keep; trivial. sm. rewrite Ch. cbn [app]. tauto.
    + destruct (Start H) as [(S1 & S2 & S3 & S4 & S5 & S6 & S7 & S8 & S9)|(S1 & S2 & S3 & S4 & S5 & S6 & S7 & S8 & S9)]; apply Keep; trivial; right; right; right; rewrite S2, S3, S4, S9; tauto.
    + rewrite Hc in H. injection H as -> ->. cbn [exec] in E. rewrite A3 in E. apply N.eqb_neq in Zn. rewrite Zn in E. injection E as <-. apply Keep; trivial. sm. tauto.
    + rewrite Hc in H. injection H as -> ->. cbn [exec] in E. rewrite A3 in E. pose proof Zn as Zn'. apply N.eqb_neq in Zn. rewrite Zn, Cu in E.
      rewrite N.div_0_l in E by trivial. cbn [N.eqb noBlock] in E. rewrite Ch in E.
      injection E as <-. apply Keep; trivial. sm. right. left. rewrite N.div_0_l, N.mod_0_l by trivial. cbn [app]. tauto.
Qed.

Lemma ordO_main k (s s' : state e) junk i c : ordO k s -> inv (fun _ => None) s -> code s = i :: c -> exec junk s i c = Some s' -> ordB k s'.
Proof.
  intros (O & n & na & Fn & An & L & R0 & W0 & F0 & C0 & Cu & Ch & Fi & H & Cl) I Hc E.
  assert (Ql : forall b, last s b = None).
  { pose proof (i_phase _ _ I) as P. rewrite H in P. inversion P; subst; try (destruct (changed s); discriminate);
    match goal with B : base s |- _ => apply B; trivial end. }
  rewrite Hc in H. injection H as -> ->. cbn [exec] in E. destruct Fi as (Lf & Fi).
  assert (Zn : n <> 0) by (destruct Fn; lia). pose proof Zn as Zn'. apply N.eqb_neq in Zn'. rewrite Zn' in E.
  assert (X : (N.of_nat (length (tb s)) <=? n) = true) by (apply N.leb_le; lia). rewrite X in E. cbn in E. injection E as <-.
  exists n, na, k. unfold codesB, starting. sm. split; [right; now split|]. split; [trivial|]. split; [trivial|]. split; [trivial|]. split; [trivial|]. split; [trivial|]. split; [lia|].
  split. { intros r Hr. left. destruct (N.eqb_spec k 0); [lia|]. split; trivial. rewrite N.div_small by lia. split; trivial. unfold holds. rewrite N.mod_small by lia.
    eexists. split; [now apply Fi|reflexivity]. }
  split. { intros b Hb. now rewrite Ql in Hb. }
  split; [lia|]. split.
  { intros _. split; [|intros b x Hb; now rewrite Ql in Hb]. apply Forall_forall. intros rw Hin. apply In_nth_error in Hin. destruct Hin as (j & Hj).
    assert (j < length (tb s))%nat by (apply nth_error_Some; congruence).
    specialize (Fi (N.of_nat j) ltac:(lia)). rewrite Nat2N.id, Hj in Fi. injection Fi as ->. split; cbn.
    - rewrite firstn_length. pose proof (HD (N.of_nat j)). lia.
    - intros _. apply An. lia. }
  destruct (N.eqb_spec k 0) as [->|Hk].
  - right. right. right. assert (tb s = []) by (destruct (tb s); trivial; cbn in Lf; lia). tauto.
  - left. rewrite N.div_small by lia. tauto.
Qed.

Lemma ord_step k (s s' : state e) : ord k s -> inv (fun _ => None) s -> step s s' -> code s <> [] \/ code s' = [] ->
  status s' = Running -> ord k s'.
Proof.
  intros O I S Nc R. inversion S as [? St|a R0 C0 C1 A|j H|H|j H1 H2 H3]; subst.
  - inversion St as [junk i c ? _ Hc Mw E|j w y s1 w1 _ Hw Hy E]; subst.
    + destruct O as [O|[O|O]]; [eapply ordA_main; eauto|right; left; eapply ordB_main; eauto|right; left; eapply ordO_main; eauto].
    + eapply ord_worker; eauto.
  - cbn in Nc. destruct Nc as [Nc|Nc]; [congruence|destruct a; discriminate].
  - destruct O as [(m & _ & W & _)|[O|(_ & n & na & _ & _ & _ & _ & W & _)]]; [rewrite W in H; destruct j; discriminate| |rewrite W in H; destruct j; discriminate].
    right. left. now apply (ordB_ext k s).
  - destruct O as [O|[O|O]]; [left; now apply (ordA_ext k s)|right; left; now apply (ordB_ext k s)|right; right; now apply (ordO_ext k s)].
  - destruct O as [O|[O|O]]; [left; now apply (ordA_ext k s)|right; left; now apply (ordB_ext k s)|right; right; now apply (ordO_ext k s)].
Qed.

(** between two calls *)
Lemma ordB_idle k n m (s : state e) : codesB k n m s -> code s = [] -> closed s = false ->
  k = m /\ (changed s = true /\ cur s = (m - 1) / n /\ m <> 0 \/ changed s = false /\ m = 0 /\ cur s = noBlock /\ tb s = []).
Proof.
  intros H C Cl. unfold codesB, starting in H. rewrite C, Cl in H.
  destruct H as [(_ & H1 & H2 & H3 & H)|[(_ & _ & _ & _ & [(H & _)|(H & _)])|[(H & _)|(_ & H1 & H2 & H3 & H4 & H)]]]; try discriminate.
  - destruct H as [(_ & H)|[(_ & [H|[H|[H|[H|H]]]])|[(_ & _ & H)|[(_ & _ & H)|[(_ & H)|(_ & [H|[H|H]])]]]]]; try discriminate. tauto.
  - destruct H as [(H & _)|(_ & [H|H])]; try discriminate. subst m. tauto.
Qed.

Lemma ord_reach k (s : state e) : (nthreads e <> 0)%nat -> in_order o D k s -> status s = Running -> ord k s.
Proof.
  intros NT H. induction H as [|k s H IH R C0 C1 L|k s H IH R C0 C1|k s s' H IH St Nc|k n na s H IH R C0 C1 O Z L L2 Fn An]; intros R1.
  - left. exists 0. cbn. do 3 (split; [trivial|]). split; [intros r Hr; lia|]. left. split; [repeat split; try easy; intros r Hr; lia|]. now left.
  - destruct (IH R) as [(m & A)|[(n & na & m & B)|(_ & n & na & B)]]; [| |exfalso; destruct B as (_ & _ & _ & _ & _ & _ & _ & _ & _ & _ & B & _); congruence].
    + left. exists m. sm. destruct A as (A1 & A2 & A3 & A4 & [(A5 & [A|[A|[A|[A|[A|[A|A]]]]]])|A]); try (destruct A; congruence); try (destruct A as (_ & A & _); congruence).
      destruct A as (_ & _ & ->). repeat (split; [trivial|]). left. split; trivial. tauto.
    + right. left. exists n, na, m. sm. destruct B as (B0 & B1 & B2 & B3 & B4 & B5 & B6 & B7 & B8 & B9 & B10 & B).
      destruct (ordB_idle k n m s B C0 C1) as (-> & B').
      split; [destruct B0; [left; lia|now right]|]. do 5 (split; [assumption|]). split; [lia|]. repeat (split; [assumption|]).
      unfold codesB. sm. destruct B' as [B'|(B' & -> & B'')]; [left|right; right; right; cbn]; tauto.
  - destruct (IH R) as [(m & A)|[(n & na & m & B)|(_ & n & na & B)]]; [| |exfalso; destruct B as (_ & _ & _ & _ & _ & _ & _ & _ & _ & _ & B & _); congruence].
    + left. exists m. sm. destruct A as (A1 & A2 & A3 & A4 & [(A5 & [A|[A|[A|[A|[A|[A|A]]]]]])|A]); try (destruct A; congruence); try (destruct A as (_ & A & _); congruence).
      destruct A as (_ & _ & ->). repeat (split; [trivial|]). left. split; trivial. tauto.
    + right. left. exists n, na, m. sm. destruct B as (B0 & B1 & B2 & B3 & B4 & B5 & B6 & B7 & B8 & B9 & B10 & B).
      destruct (ordB_idle k n m s B C0 C1) as (-> & B').
      repeat (split; [assumption|]). unfold codesB. sm. destruct B' as [B'|(B' & -> & B'')]; [left|right; right; right]; tauto.
  - pose proof (step_running _ _ St R1) as R. eapply ord_step; eauto. apply (inv_reach (fresh e)); trivial; [constructor|].
    eapply order_reach; eauto.
  - destruct (IH R) as [(m & A)|[(n' & na' & m & B)|(_ & n' & na' & B)]].
    + right. right. split; trivial. exists n, na. sm. destruct A as (A1 & A2 & A3 & A4 & [(A5 & [A|[A|[A|[A|[A|[A|A]]]]]])|A]); try (destruct A; congruence); try (destruct A as (_ & A & _); congruence).
      destruct A as (_ & _ & ->). tauto.
    + exfalso. destruct B as (_ & (B1 & _) & _ & B & _). lia.
    + exfalso. destruct B as (_ & _ & _ & _ & _ & _ & _ & _ & _ & _ & B & _). congruence.
Qed.

(** * C40 *)
Lemma block_size_known k n na (s : state e) : (nthreads e <> 0)%nat -> in_order o D k s -> status s = Running -> code s = [] ->
  first_block e n -> antenna_count e n na -> (rpb s = 0 /\ k <= n) \/ (rpb s = n /\ nant s = na /\ (n < k \/ o /\ n < 2 ^ 32)).
Proof.
  intros NT H R C Fn An. destruct (ord_reach k s NT H R) as [(m & A)|[(n' & na' & m & B)|(_ & n' & na' & B)]].
  - left. destruct A as (A1 & A2 & A3 & A4 & A). split; trivial. apply N.nlt_ge. intros L.
    assert (k = m) by (destruct A as [(A5 & [A|[A|[A|[A|[A|[A|A]]]]]])|A]; destruct A as (A & A' & A''); try congruence; lia).
    subst m. destruct Fn as (_ & _ & Fn). now apply Fn, A4.
  - right. destruct B as (B0 & B1 & B2 & B3 & B4 & _). assert (En : n' = n) by (eapply first_block_unique; eauto). rewrite En in *. clear En.
    assert (EN : na' = na) by (exact (antenna_count_unique e n na' na B2 An)). rewrite EN in *; clear EN. now repeat split.
  - exfalso. destruct B as (_ & _ & _ & _ & _ & _ & _ & _ & _ & _ & B & _). congruence.
Qed.

(** * C52 *)
Lemma order_on_disk k n na (s : state e) : (nthreads e <> 0)%nat -> in_order o D k s -> status s = Running -> closed s = true -> code s = [] ->
  first_block e n -> antenna_count e n na -> n < k \/ rpb s <> 0 ->
  rpb s = n /\ nant s = na /\ forall r, r < k -> exists y x rw, file s (r / n) = Some y /\ enc e n na x y /\
    nth_error x (N.to_nat (r mod n)) = Some rw /\ visibilities rw = firstn (nSamp e) (D r).
Proof.
  intros NT H R Cl C Fn An L. pose proof (order_reach _ _ _ _ H) as Hr.
  destruct (block_size_known k n na s NT H R C Fn An) as [(X1 & X2)|(X1 & X2 & _)]; [exfalso; destruct L; [lia|congruence]|]. split; trivial. split; trivial.
  destruct (on_disk (fresh e) s NT (starts_fresh) Hr R Cl C) as (_ & _ & Q & _). rewrite X1, X2 in Q.
  destruct (ord_reach k s NT H R) as [(m & A1 & _)|[(n' & na' & m & B)|(_ & n' & na' & _ & _ & _ & B & _)]]; [destruct Fn; lia| |destruct Fn; lia].
  destruct B as (B0 & B1 & B2 & B3 & B4 & B5 & B6 & B7 & B8 & B9 & B10 & B).
  assert (En : n' = n) by congruence. rewrite En in *. clear En.
  assert (k = m /\ changed s = false) as (-> & Ch).
  { destruct B as [(B & _)|[(B & _)|[(_ & -> & [(_ & _ & _ & B)|(B & _)])|(B & _)]]]; try congruence. now split. }
  intros r Hlt. destruct (B7 r Hlt) as [(B' & _)|(_ & x & B' & rw & B'' & B3')]; [congruence|].
  destruct (Q _ _ B') as (y & Y1 & Y2). exists y, x, rw. repeat split; trivial.
Qed.

Lemma order_no_ub k na n (s : state e) : (nthreads e <> 0)%nat -> in_order o D k s ->
  first_block e n -> antenna_count e n na ->
  (forall r, af e = true -> (fst (ants e r) < na)%nat /\ (snd (ants e r) < na)%nat) -> status s <> Undefined.
Proof.
  intros NT H Fn Cn An. induction H as [|k s H IH R C0 C1 L|k s H IH R C0 C1|k s s' H IH St Nc|k n0 na0 s H IH R C0 C1 O Z L L2 Fn0 An0]; try (sm; congruence); [cbn; discriminate|].
  intros U. inversion St as [? S|a R0 C0 C1 A|j Hj|Hj|j H1 H2 H3]; subst; sm; try congruence; try (unfold set_worker in U; sm; congruence).
  inversion S as [junk i c ? R Hc Mw E J|j w y s1 w1 R Hw Hy E]; subst.
  - assert (Pb : forall (t : state e) r m, status t = Running -> status (put_buffer t r m (D m)) <> Undefined).
    { intros t r m Rt. unfold put_buffer.
      destruct (set_ok (nSamp e) (tb t) (N.to_nat r) (fst (ants e m)) (snd (ants e m)) (D m) (HD m)) as (b & -> & _). sm. congruence. }
    assert (Ld : forall (t : state e) b, status t = Running -> status (load junk t b) <> Undefined).
    { intros t b Rt. unfold load. destruct (cached _ _); sm; destruct (_ <? _)%N; [destruct (file t b); [|destruct junk]| |destruct (file t b); [|destruct junk]|]; sm; congruence. }
    assert (Cc : match i with IPut r d | IPutRow r d | ISet _ r d => d = D r | IRead _ | IGetRow _ | IGet _ => False | _ => True end).
    { destruct (ord_reach k s NT H R) as [(m & _ & _ & _ & _ & A)|[(n' & na' & m & B)|(_ & n' & na' & B)]].
      - destruct A as [(A5 & [A|[A|[A|[A|[A|[A|A]]]]]])|A]; destruct A as (A & A' & A''); rewrite Hc in A; try discriminate; injection A as -> ->; trivial.
      - destruct B as (_ & _ & _ & _ & _ & _ & _ & _ & _ & _ & _ & B).
        destruct B as [(_ & Ch & Cu & _ & [(B & _)|[(_ & [B|[B|[B|[B|B]]]])|[(_ & _ & B)|[(_ & _ & B)|[(_ & B)|(_ & [B|[B|B]])]]]]])|[(_ & _ & _ & _ & [(B & _)|(B & _)])|[(_ & _ & [(_ & _ & _ & B)|(_ & [B|[B|B]])])|(_ & _ & _ & _ & _ & [(_ & [B|[B|[B|[B|B]]]])|(_ & [B|B])])]]];
          rewrite Hc in B; try discriminate; injection B as -> ->; trivial.
      - destruct B as (_ & _ & _ & _ & _ & _ & _ & _ & _ & _ & B & _). rewrite Hc in B. injection B as -> ->. exact Logic.I. }
    destruct i; cbn [exec] in E; try contradiction; try subst d;
      repeat match type of E with
      | (if ?b then _ else _) = Some _ => destruct b eqn:?
      | match ?b with _ => _ end = Some _ => destruct b eqn:?
      end; try discriminate; injection E as <-;
      repeat match type of U with status (if ?b then _ else _) = _ => destruct b end; unfold notify in *; sm; try congruence;
      try (now apply Pb in U); try (now apply Ld in U).
  - assert (X : forall b x, w = WPicked b x -> encodable e (rpb s) (nant s) x = true).
    { intros b x ->. pose proof (inv_reach (fresh e) s NT starts_fresh (order_reach _ _ _ _ H) R) as I.
      apply nth_error_In in Hw. apply (i_picked _ _ I) in Hw. pose proof (i_last _ _ I _ _ _ Hw) as Hl.
      destruct (ord_reach k s NT H R) as [(m & _ & W & _)|[(n' & na' & m & B)|(_ & n' & na' & _ & _ & _ & _ & W & _)]].
      - exfalso. destruct (i_busy _ _ I b) as (_ & Q). rewrite W in Q. destruct Q; eauto.
      - destruct B as (B0 & B1 & B2 & B3 & B4 & B5 & B6 & B7 & B8 & B9 & B10 & _).
        assert (En : n' = n) by (eapply first_block_unique; eauto). rewrite En in *. clear En.
        assert (EN : na' = na) by (exact (antenna_count_unique e n na' na B2 Cn)). rewrite EN in *; clear EN. rewrite B3, B4. eapply B10; eauto.
      - exfalso. destruct (i_busy _ _ I b) as (_ & Q). rewrite W in Q. destruct Q; eauto. }
    destruct w as [| | |b x|b|]; cbn [wexec] in E; unfold pick in E; try rewrite (X _ _ eq_refl) in E;
      repeat match type of E with
      | (if ?b then _ else _) = Some _ => destruct b eqn:?
      | match match ?b with _ => _ end with _ => _ end = Some _ => destruct b eqn:?
      | match ?b with _ => _ end = Some _ => destruct b eqn:?
      end; try discriminate; injection E as <- <-; unfold set_worker, notify in U; sm; congruence.
Qed.

Lemma order_no_fault k (s : state e) : (nthreads e <> 0)%nat -> in_order o D k s -> status s = Running -> faults s = [].
Proof. intros NT H R. destruct (ord_reach k s NT H R) as [(m & A)|[(n & na & m & B)|(_ & n & na & B)]]; tauto. Qed.

(** an exception comes from a failed read of a block that another column wrote first *)
Lemma order_throws k n (s s' : state e) : (nthreads e <> 0)%nat -> in_order o D k s -> status s = Running -> step s s' -> status s' = Thrown ->
  first_block e n -> (closed s = true -> n < k \/ rpb s <> 0) -> exists b c, code s = ILoad b :: c /\ b < nblk s /\ file s b = None.
Proof.
  intros NT H R0 St U Fn Lk. inversion St as [? S|a R1 C0 C1 A|j Hj|Hj|j H1 H2 H3]; subst; sm; try congruence; try (unfold set_worker in U; sm; congruence).
  inversion S as [junk i c ? R Hc Mw E J|j w y s1 w1 R Hw Hy E]; subst.
  - assert (Pb : forall (t : state e) r m, status t = Running -> status (put_buffer t r m (D m)) <> Thrown).
    { intros t r m Rt. unfold put_buffer.
      destruct (set_ok (nSamp e) (tb t) (N.to_nat r) (fst (ants e m)) (snd (ants e m)) (D m) (HD m)) as (b & -> & _). sm. congruence. }
    assert (Ld : forall b, status (load junk (set_code s c) b) = Thrown -> b < nblk s /\ file s b = None).
    { intros b. unfold load. destruct (cached _ _); sm; destruct (N.ltb_spec b (nblk s)); [destruct (file s b); [|destruct junk]| |destruct (file s b); [|destruct junk]|]; sm; try congruence; auto. }
    assert (Cc : match i with IPut r d | IPutRow r d | ISet _ r d => d = D r | IRead _ | IGetRow _ | IGet _ => False | IStop => workers s <> [] \/ cache s = [] | _ => True end).
    { pose proof (inv_reach (fresh e) s NT starts_fresh (order_reach _ _ _ _ H) R) as I.
      destruct (ord_reach k s NT H R) as [(m & Az & _ & _ & Sk & A)|[(n' & na' & m & B)|(_ & n' & na' & B)]].
      - destruct A as [((C0 & A5) & [A|[A|[A|[A|[A|[A|A]]]]]])|A]; destruct A as (A & A' & A''); rewrite Hc in A; try discriminate; injection A as -> ->; trivial; auto.
        exfalso. destruct A'' as (_ & _ & -> & Hm). destruct Fn as (_ & _ & Fn). destruct (Lk A') as [Lk'|Lk']; [now apply Fn, Sk|congruence].
      - destruct B as (_ & (Bp & _) & _ & Br & _ & _ & _ & _ & _ & _ & _ & B).
        destruct B as [(_ & Ch & Cu & _ & [(B & _)|[(_ & [B|[B|[B|[B|B]]]])|[(_ & _ & B)|[(_ & _ & B)|[(_ & B)|(_ & [B|[B|B]])]]]]])|[(_ & _ & _ & _ & [(B & _)|(B & _)])|[(Cl & _ & [(_ & _ & _ & B)|(_ & [B|[B|B]])])|(_ & _ & _ & _ & _ & [(_ & [B|[B|[B|[B|B]]]])|(_ & [B|B])])]]];
          rewrite Hc in B; try discriminate; injection B as -> ->; trivial.
        + pose proof (i_phase _ _ I) as P. rewrite Hc in P. inversion P; subst; try (destruct (changed s); discriminate); unfold quiet in *; tauto.
        + pose proof (i_phase _ _ I) as P. rewrite Hc in P. inversion P; subst; try (destruct (changed s); discriminate); unfold quiet in *; tauto.
        + pose proof (i_phase _ _ I) as P. rewrite Hc in P. inversion P; subst; try (destruct (changed s); discriminate); try congruence.
          left. match goal with H : rpb s <> 0 -> _ |- _ => apply H end. lia.
        + pose proof (i_phase _ _ I) as P. rewrite Hc in P. inversion P; subst; try (destruct (changed s); discriminate); unfold quiet in *; tauto.
      - destruct B as (_ & _ & _ & _ & _ & _ & _ & _ & _ & _ & B & _). rewrite Hc in B. injection B as -> ->. exact Logic.I. }
    destruct i; cbn [exec] in E; try contradiction; try subst d;
      repeat match type of E with
      | (if ?b then _ else _) = Some _ => destruct b eqn:?
      | match ?b with _ => _ end = Some _ => destruct b eqn:?
      end; try discriminate; injection E as <-;
      repeat match type of U with status (if ?b then _ else _) = _ => destruct b end; unfold notify in *; sm; try congruence;
      try (now apply Pb in U).
    + exists b, c. split; trivial. now apply Ld.
    + destruct Cc; congruence.
  - exfalso. destruct w as [| | |b x|b|]; cbn [wexec] in E; unfold pick in E;
      repeat match type of E with
      | (if ?b then _ else _) = Some _ => destruct b eqn:?
      | match match ?b with _ => _ end with _ => _ end = Some _ => destruct b eqn:?
      | match ?b with _ => _ end = Some _ => destruct b eqn:?
      end; try discriminate; injection E as <- <-; unfold set_worker, notify in U; sm; congruence.
Qed.

End order.

(** * C39 and C40, without another column that finds the block size *)
Lemma block_size_learnt {e} (D : N -> list (data e)) (HD : forall r, (nSamp e <= length (D r))%nat) k n na (s : state e) : (nthreads e <> 0)%nat -> in_order False D k s -> status s = Running -> code s = [] ->
  first_block e n -> antenna_count e n na -> (k <= n -> rpb s = 0) /\ (n < k -> rpb s = n /\ nant s = na).
Proof.
  intros NT H R C Fn An. destruct (block_size_known False D HD k n na s NT H R C Fn An) as [(X1 & X2)|(X1 & X2 & [X3|([] & _)])]; split; intros; try lia; auto.
Qed.

Lemma single_block_not_closed {e} (D : N -> list (data e)) (HD : forall r, (nSamp e <= length (D r))%nat) k (s : state e) : (nthreads e <> 0)%nat -> in_order False D k s -> 0 < k -> (forall r, r < k -> same_keys e r 0) ->
  closed s = true -> code s = [] -> status s <> Running.
Proof.
  intros NT H Lk Sk Cl C R. destruct (ord_reach False D HD k s NT H R) as [(m & A)|[(n' & na' & m & B)|([] & _)]].
  - destruct A as (A1 & A2 & A3 & A4 & [(A5 & [A|[A|[A|[A|[A|[A|A]]]]]])|A]); destruct A as (A & A' & A''); try congruence; lia.
  - destruct B as ([B0|([] & _)] & (_ & _ & B1) & _). apply B1. now apply Sk.
Qed.
