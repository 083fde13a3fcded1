(** Proofs about the stop watch. *)
From Coq Require Import String Lia.
From Verif Require Import Base Stopwatch StopwatchSpec.
Local Open Scope Z_scope.

Lemma ticks_split f a b c : a <= b -> b <= c -> ticks f a c = ticks f a b + ticks f b c.
Proof.
  intros H1 H2. unfold ticks. replace (Z.to_nat (c - a)) with (Z.to_nat (b - a) + Z.to_nat (c - b))%nat by lia.
  rewrite seq_app, map_app, filter_app, app_length, Nat2Z.inj_add. f_equal. f_equal. f_equal. f_equal.
  change (0 + Z.to_nat (b - a))%nat with (Z.to_nat (b - a)).
  generalize (Z.to_nat (c - b)) as k. intro k.
  replace (seq (Z.to_nat (b - a)) k) with (map (fun i => (Z.to_nat (b - a) + i)%nat) (seq 0 k)).
  - rewrite map_map. apply map_ext. intro i. lia.
  - clear. generalize (Z.to_nat (b - a)) as m. intro m.
    assert (G : forall z, map (fun i => (m + i)%nat) (seq z k) = seq (m + z) k).
    { induction k; intro z; cbn; [reflexivity|]. rewrite IHk, Nat.add_succ_r. reflexivity. }
    rewrite G, Nat.add_0_r. reflexivity.
Qed.

Lemma ticks_ext f g a b : (forall u, a <= u < b -> f u = g u) -> ticks f a b = ticks g a b.
Proof.
  intro H. unfold ticks. f_equal. f_equal. apply filter_ext_in. intros u Hu.
  apply in_map_iff in Hu. destruct Hu as (k & <- & Hk). apply in_seq in Hk. apply H. lia.
Qed.

Lemma ticks_true f a b : a <= b -> (forall u, a <= u < b -> f u = true) -> ticks f a b = b - a.
Proof.
  intros L H. rewrite (ticks_ext f (fun _ => true) a b H). unfold ticks.
  assert (E : forall l : list Z, filter (fun _ => true) l = l) by (induction l; cbn; congruence).
  rewrite E, map_length, seq_length. lia.
Qed.

Lemma ticks_false f a b : (forall u, a <= u < b -> f u = false) -> ticks f a b = 0.
Proof.
  intro H. rewrite (ticks_ext f (fun _ => false) a b H). unfold ticks.
  assert (E : forall l : list Z, filter (fun _ => false) l = []) by (induction l; cbn; congruence).
  rewrite E. reflexivity.
Qed.

Lemma filter_all {A} (f : A -> bool) l : (forall x, In x l -> f x = true) -> filter f l = l.
Proof. induction l; cbn; intro H; [reflexivity|]. rewrite (H a (or_introl eq_refl)). f_equal. apply IHl. auto. Qed.

Lemma last_snoc {A} (l : list A) x d : last (l ++ [x]) d = x.
Proof. induction l as [|y l IH]; [reflexivity|]. cbn. destruct (l ++ [x]) eqn:E; [destruct l; discriminate|exact IH]. Qed.

Lemma ordered_snoc h p t : ordered (h ++ [p]) t -> ordered h (time_of p) /\ time_of p <= t /\ (forall q, In q h -> time_of q <= time_of p).
Proof.
  induction h as [|q h IH]; cbn.
  - intros (H & _). refine (conj I (conj H _)). intros q [].
  - intros (H1 & H2 & H3). destruct (IH H3) as (A & B & C).
    assert (D : time_of q <= time_of p) by (apply H2, in_or_app; right; left; reflexivity).
    refine (conj (conj D (conj _ A)) (conj B _)).
    + intros x Hx. apply H2, in_or_app. auto.
    + intros x [<-|Hx]; auto.
Qed.

Lemma measured_before h p u : u < time_of p -> measured (h ++ [p]) u = match p with Reset _ => false | _ => measured h u end.
Proof.
  intro H. unfold measured, last_press. rewrite filter_app, forallb_app. cbn [filter forallb].
  assert (E : time_of p <=? u = false) by (apply Z.leb_gt; exact H).
  rewrite E, app_nil_r. destruct p; cbn [time_of] in *.
  - rewrite Bool.andb_true_r. reflexivity.
  - rewrite Bool.andb_true_r. reflexivity.
  - rewrite E. cbn. rewrite !Bool.andb_false_r. reflexivity.
Qed.

Lemma measured_after h p u : (forall q, In q h -> time_of q <= u) -> time_of p <= u ->
  measured (h ++ [p]) u = match p with Start _ => true | _ => false end.
Proof.
  intros H1 H2. unfold measured, last_press. rewrite filter_all.
  - rewrite map_app. cbn [map]. rewrite last_snoc.
    assert (E : forallb (fun p => match p with Reset t => t <=? u | _ => true end) (h ++ [p]) = true).
    { apply forallb_forall. intros q Hq. destruct q as [| |t]; [reflexivity..|]. apply Z.leb_le.
      apply in_app_or in Hq. destruct Hq as [Hq|[Hq|[]]]; [apply (H1 _ Hq)|rewrite Hq in H2; exact H2]. }
    rewrite E. destruct p; reflexivity.
  - intros q Hq. apply Z.leb_le. apply in_app_or in Hq. destruct Hq as [Hq|[<-|[]]]; [apply (H1 _ Hq)|exact H2].
Qed.

Lemma watch_inv : forall h t a, ordered h t -> (forall q, In q h -> a <= time_of q) -> a <= t ->
  current t (fold_left press_watch h newWatch) = ticks (measured h) a t.
Proof.
  intro h. induction h as [|p h IH] using rev_ind; intros t a O A L.
  - symmetry. apply ticks_false. reflexivity.
  - destruct (ordered_snoc _ _ _ O) as (O1 & O2 & O3).
    assert (Ap : a <= time_of p) by (apply A, in_or_app; right; left; reflexivity).
    assert (A' : forall q, In q h -> a <= time_of q) by (intros q Hq; apply A, in_or_app; auto).
    rewrite fold_left_app. cbn [fold_left].
    pose proof (IH (time_of p) a O1 A' Ap) as I1. set (w := fold_left press_watch h newWatch) in *. clearbody w. clear IH.
    rewrite (ticks_split _ a (time_of p) t Ap O2).
    assert (After : forall u, time_of p <= u < t -> measured (h ++ [p]) u = match p with Start _ => true | _ => false end).
    { intros u [H _]. apply measured_after; [|exact H]. intros q Hq. specialize (O3 q Hq). lia. }
    assert (Before : forall u, a <= u < time_of p -> measured (h ++ [p]) u = match p with Reset _ => false | _ => measured h u end).
    { intros u [_ H]. apply measured_before, H. }
    destruct p as [tp|tp|tp]; cbn [time_of press_watch] in *.
    + rewrite (ticks_true _ tp t O2 After), (ticks_ext _ _ a tp Before), <- I1.
      unfold start, current. destruct (wrunning w) eqn:R; rewrite ?R; cbn; lia.
    + rewrite (ticks_false _ tp t After), (ticks_ext _ _ a tp Before), <- I1.
      unfold pause, current. destruct (wrunning w) eqn:R; rewrite ?R; cbn; lia.
    + rewrite (ticks_false _ tp t After), (ticks_false _ a tp Before). reflexivity.
Qed.

(** *** Texts *)
Lemma roundq_near a b : 0 < b -> 0 <= a -> Z.abs (2 * (roundq a b * b - a)) <= b /\ 0 <= roundq a b.
Proof.
  intros B A. unfold roundq. destruct (Z.leb_spec 0 a); [|lia]. assert (N : 2 * b <> 0) by lia.
  pose proof (Z.div_mod (2 * a + b) (2 * b) N) as H0. pose proof (Z.mod_pos_bound (2 * a + b) (2 * b) ltac:(lia)).
  split; [|apply Z.div_pos; lia]. set (q := (2 * a + b) / (2 * b)) in *. clearbody q. apply Z.abs_le. replace (2 * b * q) with (2 * (q * b)) in H0 by ring. lia.
Qed.

Lemma minutes_shown s : 0 <= s -> s / 60 * 60 + Z.rem s 60 = s.
Proof. intro H. rewrite Z.rem_mod_nonneg by lia. pose proof (Z.div_mod s 60). lia. Qed.

Lemma ms_shown ms : 0 <= ms < 1000 -> shows_within 0 (toShort ms) ms.
Proof.
  intro H. unfold toShort.
  destruct (Z.leb_spec 86400000 ms); [lia|]. destruct (Z.leb_spec 3600000 ms); [lia|]. destruct (Z.leb_spec 60000 ms); [lia|]. destruct (Z.leb_spec 1000 ms); [lia|].
  destruct (Z.leb_spec 2 ms).
  - unfold toMilliSeconds. destruct (Z.leb_spec 100 (ms * 10)); (eexists; split; [reflexivity|]); change (10000000 / 10) with 1000000; apply Z.abs_le; lia.
  - destruct (Z.leb_spec 1 ms).
    + replace ms with 1 by lia. eexists. split; [reflexivity|]. cbn. lia.
    + replace ms with 0 by lia. eexists. split; [reflexivity|]. cbn. lia.
Qed.

Lemma seconds_shown ms : 1000 <= ms < 60000 -> shows_within (if ms <? 9950 then 50 else 500) (toShort ms) ms.
Proof.
  intro H. unfold toShort.
  destruct (Z.leb_spec 86400000 ms); [lia|]. destruct (Z.leb_spec 3600000 ms); [lia|]. destruct (Z.leb_spec 60000 ms); [lia|]. destruct (Z.leb_spec 1000 ms); [|lia].
  unfold toSeconds. pose proof (roundq_near ms 100 ltac:(lia) ltac:(lia)) as (R & _). pose proof (roundq_near ms 1000 ltac:(lia) ltac:(lia)) as (R' & _).
  apply Z.abs_le in R, R'. destruct (Z.leb_spec 100 (roundq ms 100)); destruct (Z.ltb_spec ms 9950).
  - exfalso. unfold roundq in H4. destruct (Z.leb_spec 0 ms); [|lia]. change (2 * 100) with 200 in H4. assert ((2 * ms + 100) / 200 < 100) by (apply Z.div_lt_upper_bound; lia). lia.
  - eexists; split; [reflexivity|]; apply Z.abs_le; lia.
  - eexists; split; [reflexivity|]. change (10000000000 / 10) with 1000000000. apply Z.abs_le; lia.
  - eexists; split; [reflexivity|]. change (10000000000 / 10) with 1000000000. apply Z.abs_le; lia.
Qed.

Lemma minutes_shown_within ms : 60000 <= ms < 3600000 -> shows_within (if ms <? 599500 then 500 else 30500) (toShort ms) ms.
Proof.
  intro H. unfold toShort.
  destruct (Z.leb_spec 86400000 ms); [lia|]. destruct (Z.leb_spec 3600000 ms); [lia|]. destruct (Z.leb_spec 60000 ms); [|lia].
  unfold toMinutes. pose proof (roundq_near ms 1000 ltac:(lia) ltac:(lia)) as (R & P). set (s := roundq ms 1000) in *.
  assert (Q : 600 <= s -> 599500 <= ms).
  { intro G. subst s. unfold roundq in G. destruct (Z.leb_spec 0 ms); [|lia]. change (2 * 1000) with 2000 in G. destruct (Z.le_gt_cases 599500 ms); [assumption|].
    assert ((2 * ms + 1000) / 2000 < 600) by (apply Z.div_lt_upper_bound; lia). lia. }
  clearbody s. pose proof (roundq_near s 60 ltac:(lia) P) as (R' & _). pose proof (minutes_shown s P) as M.
  apply Z.abs_le in R, R'. destruct (Z.leb_spec 600 s).
  - destruct (Z.ltb_spec ms 599500); [exfalso; lia|]. eexists; split; [reflexivity|]; apply Z.abs_le; lia.
  - eexists; split; [reflexivity|]. apply Z.abs_le. destruct (Z.ltb_spec ms 599500); lia.
Qed.

Lemma hours_shown ms : 36000000 <= ms < 86400000 -> shows_within 1830000 (toShort ms) ms.
Proof.
  intro H. unfold toShort. destruct (Z.leb_spec 86400000 ms); [lia|]. destruct (Z.leb_spec 3600000 ms); [|lia].
  unfold toHours. pose proof (roundq_near ms 60000 ltac:(lia) ltac:(lia)) as (R & P). set (m := roundq ms 60000) in *.
  assert (Q : 600 <= m). { apply Z.abs_le in R. lia. }
  clearbody m. pose proof (roundq_near m 60 ltac:(lia) P) as (R' & _). apply Z.abs_le in R, R'.
  destruct (Z.leb_spec 600 m); [|lia]. eexists; split; [reflexivity|]; apply Z.abs_le; lia.
Qed.

Lemma days_shown ms : 864000000 <= ms -> shows_within 45000000 (toShort ms) ms.
Proof.
  intro H. unfold toShort. destruct (Z.leb_spec 86400000 ms); [|lia].
  unfold toDays. pose proof (roundq_near ms 3600000 ltac:(lia) ltac:(lia)) as (R & P). set (h := roundq ms 3600000) in *.
  assert (Q : 240 <= h). { apply Z.abs_le in R. lia. }
  clearbody h. pose proof (roundq_near h 24 ltac:(lia) P) as (R' & _). apply Z.abs_le in R, R'.
  destruct (Z.leb_spec 240 h); [|lia]. eexists; split; [reflexivity|]; apply Z.abs_le; lia.
Qed.

(** Between 1 and 10 hours the whole hours are shown twice *)
Lemma hours_twice ms : 3600000 <= ms < 35970000 -> exists v, meaning (toShort ms) = Some v /\ v >= ms * 10000000 + 3570 * 10000000000.
Proof.
  intro H. unfold toShort. destruct (Z.leb_spec 86400000 ms); [lia|]. destruct (Z.leb_spec 3600000 ms); [|lia].
  unfold toHours. pose proof (roundq_near ms 60000 ltac:(lia) ltac:(lia)) as (R & P). set (m := roundq ms 60000) in *.
  assert (Q : m < 600). { subst m. unfold roundq. destruct (Z.leb_spec 0 ms); [|lia]. apply Z.div_lt_upper_bound; lia. }
  clearbody m. apply Z.abs_le in R. destruct (Z.leb_spec 600 m); [lia|].
  assert (G : 1 <= m / 60) by (apply Z.div_le_lower_bound; lia).
  eexists; split; [reflexivity|]. set (d := m / 60) in *. pose proof (Z.div_mod m 60 ltac:(lia)). pose proof (Z.mod_pos_bound m 60 ltac:(lia)). lia.
Qed.

Lemma simple_shown us : 0 <= us -> exists h m s f, toSimple us = (false, (h, m, s, f)) /\
  0 <= h /\ 0 <= m < 60 /\ 0 <= s < 60 /\ 0 <= f < 1000000 /\ ((h * 60 + m) * 60 + s) * 1000000 + f = us.
Proof.
  intro H. unfold toSimple. rewrite Z.abs_eq by exact H. do 4 eexists. split; [f_equal; apply Z.ltb_ge, H|].
  assert (E1 : us / 60000000 = us / 1000000 / 60) by (rewrite Z.div_div by lia; reflexivity).
  assert (E2 : us / 3600000000 = us / 1000000 / 60 / 60) by (rewrite !Z.div_div by lia; reflexivity).
  rewrite E1, E2. pose proof (Z.div_mod us 1000000 ltac:(lia)). pose proof (Z.mod_pos_bound us 1000000 ltac:(lia)).
  set (s := us / 1000000) in *. pose proof (Z.div_mod s 60 ltac:(lia)). pose proof (Z.mod_pos_bound s 60 ltac:(lia)).
  set (m := s / 60) in *. pose proof (Z.div_mod m 60 ltac:(lia)). pose proof (Z.mod_pos_bound m 60 ltac:(lia)).
  set (h := m / 60) in *. lia.
Qed.

Lemma below_ms t us : 0 <= us < 1000 -> toShort (millis (t + us) (press_watch newWatch (Start t))) = [Tenths 0; Text "ns"].
Proof.
  intro H. unfold millis. cbn [press_watch start newWatch wrunning current wsum startTime].
  replace (0 + (t + us - t)) with us by lia. rewrite Z.quot_small by lia. reflexivity.
Qed.
