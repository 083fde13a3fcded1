(** Putting further rows in an opened column. *)
From Verif Require Import Base BaseLemmas TimeBlockBuffer TbbSpec TbbProofs Column ColumnSpec UpdateSpec ColumnProofs ColumnInv ColumnReach ColumnTerm ColumnData ColumnWhole ColumnUpdate.
Local Open Scope N_scope.
Local Arguments busy : simpl never. Local Arguments upd : simpl never. Local Arguments insert : simpl never.
Local Arguments erase : simpl never. Local Arguments cached : simpl never. Local Arguments markWritten : simpl never.
Local Arguments maxCache : simpl never.

Section append.
Context {e : env} (f : N -> option (bytes e)) (nb rp : N) (na : nat) (K K2 : N) (D : N -> list (data e)).

(** Rows [K], [K+1], ... [K2-1] are put, in order, then the column is closed.  A block that
    other columns wrote before is a full one.  [k]: the next row. *)
Inductive appending : N -> state e -> Prop :=
| ap_open : appending K (opened e f nb rp na)
| ap_put k s : appending k s -> status s = Running -> code s = [] -> closed s = false -> k < 2 ^ 32 -> k < K2 ->
    appending (k + 1) (set_code s (call_code (Put k (D k))))
| ap_close s : appending K2 s -> status s = Running -> code s = [] -> closed s = false -> appending K2 (set_code s (call_code Shutdown))
| ap_step k s s' : appending k s -> status s = Running -> step s s' -> code s <> [] \/ code s' = [] ->
    (forall b c, code s = ILoad b :: c -> b < nblk s -> b < nb \/ (b + 1) * rp <= K2) -> appending k s'.

Hypotheses (Zr : rp <> 0) (Nb : nb < 2 ^ 64) (Hf : forall b, f b <> None -> b < nb) (Hk : forall b, b < nb <-> b * rp < K) (Rd : readable f rp na (fun r => r < K))
  (K12 : K < K2) (Kd : forall r, K <= r < K2 -> (nSamp e <= length (D r))%nat)
  (NT : (nthreads e <> 0)%nat) (Ha : af e = true -> forall r, (fst (ants e r) < na)%nat /\ (snd (ants e r) < na)%nat).
Notation stored := (stored_row f rp na).

(** row [r] *)
Definition new_row (r : N) (v : list (data e)) : Prop := if r <? K then stored r = Some v else v = firstn (nSamp e) (D r).

(** row [r] of a block when the rows below [m] were put *)
Definition row_at_time (m r : N) (v : list (data e)) : Prop :=
  (r < m -> new_row r v) /\ (m <= r -> if r / rp <? nb then stored r = Some v else (r / rp + 1) * rp <= K2).

Definition ab (m b : N) (x : tbb (data e)) : Prop :=
  whole (row_at_time m) rp b x /\ forall r, r < m -> r / rp = b -> (N.to_nat (r mod rp) < length x)%nat.

Definition acore (m : N) (s : state e) : Prop :=
  (forall b x, last s b = Some x -> ab m b x /\ K / rp <= b /\ b * rp < m /\ b < 2 ^ 32 /\ (closed s = false -> (b + 1) * rp <= m)) /\
  (forall r, K <= r < m -> (changed s = true /\ r / rp = cur s) \/ last s (r / rp) <> None).

(** a changed buffer *)
Definition held_buf (m : N) (s : state e) : Prop := K < m /\ m <= 2 ^ 32 /\ cur s = (m - 1) / rp /\ changed s = true /\ ab m (cur s) (tb s) /\ below s (cur s).

Definition abuf (m : N) (s : state e) : Prop :=
  (cur s = noBlock /\ changed s = false /\ m = K /\ tb s = [] /\ forall b, last s b = None) \/ held_buf m s.

Inductive acode (k : N) (s : state e) : Prop :=
| A_idle : code s = [] \/ (code s = [IShutdown] /\ k = K2) -> closed s = false -> K <= k <= K2 -> acore k s -> abuf k s -> acode k s
| A_put m : k = m + 1 -> K <= m < K2 -> m < 2 ^ 32 -> code s = [IPut m (D m)] \/ code s = [IPutRow m (D m)] -> closed s = false -> acore m s -> abuf m s -> acode k s
| A_tail m : k = m + 1 -> K <= m < K2 -> m < 2 ^ 32 -> code s = [ISet (m mod rp) m (D m)] -> cur s = m / rp -> closed s = false -> acore m s ->
    ab m (m / rp) (tb s) -> below s (m / rp) -> acode k s
| A_store m : k = m + 1 -> K <= m < K2 -> m < 2 ^ 32 -> code s = [IStore; ILoad (m / rp); ISet (m mod rp) m (D m)] -> closed s = false -> acore m s -> cur s <> m / rp -> held_buf m s -> acode k s
| A_load m : k = m + 1 -> K <= m < K2 -> m < 2 ^ 32 -> code s = [ILoad (m / rp); ISet (m mod rp) m (D m)] -> closed s = false -> acore m s -> changed s = false -> tb s = [] ->
    below s (m / rp) -> m = K \/ m mod rp = 0 -> acode k s
| A_cstore : k = K2 -> code s = [IStore; IStop] -> closed s = true -> acore K2 s -> held_buf K2 s -> acode k s
| A_closed : k = K2 -> code s = [IStop] \/ code s = [IJoin] \/ code s = [] -> closed s = true -> acore K2 s -> changed s = false -> acode k s.

Record ainv (k : N) (s : state e) : Prop := {
  a_run : status s = Running; a_rpb : rpb s = rp; a_nant : nant s = na; a_nblk : nb <= nblk s; a_mgr : mgr s = false; a_code : acode k s }.

Lemma acore_ext m (s s' : state e) : acore m s -> last s' = last s -> changed s' = changed s -> cur s' = cur s -> closed s' = closed s -> acore m s'.
Proof. unfold acore. intros H -> -> -> ->. exact H. Qed.
Lemma hbuf_ext m (s s' : state e) : held_buf m s -> last s' = last s -> changed s' = changed s -> cur s' = cur s -> tb s' = tb s -> held_buf m s'.
Proof. unfold held_buf, below. intros H -> -> -> ->. exact H. Qed.
Lemma abuf_ext m (s s' : state e) : abuf m s -> last s' = last s -> changed s' = changed s -> cur s' = cur s -> tb s' = tb s -> abuf m s'.
Proof. intros [H|H] E1 E2 E3 E4; [left; now rewrite E1, E2, E3, E4|right; now apply (hbuf_ext m s)]. Qed.

Lemma acode_ext k (s s' : state e) : acode k s -> last s' = last s -> changed s' = changed s -> cur s' = cur s -> tb s' = tb s -> closed s' = closed s -> code s' = code s -> acode k s'.
Proof.
  intros H E1 E2 E3 E4 E5 E6.
  destruct H as [H C M Q B|m Ek M M32 H C Q B|m Ek M M32 H Cu C Q U B|m Ek M M32 H C Q Cu B|m Ek M M32 H C Q Ch Tb B Em|Ek H C Q B|Ek H C Q Ch];
    rewrite <- ?E6 in H; (try rewrite <- E5 in C); (try rewrite <- E2 in Ch); (try rewrite <- E3 in Cu); (try rewrite <- E4 in U); (try rewrite <- E4 in Tb).
  - apply A_idle; trivial; [now apply (acore_ext k s)|now apply (abuf_ext k s)].
  - apply (A_put _ _ m); trivial; [now apply (acore_ext m s)|now apply (abuf_ext m s)].
  - apply (A_tail _ _ m); trivial; [now apply (acore_ext m s)|]. unfold below. now rewrite E1.
  - apply (A_store _ _ m); trivial; [now apply (acore_ext m s)|now apply (hbuf_ext m s)].
  - apply (A_load _ _ m); trivial; [now apply (acore_ext m s)|]. unfold below. now rewrite E1.
  - apply A_cstore; trivial; [now apply (acore_ext K2 s)|now apply (hbuf_ext K2 s)].
  - apply A_closed; trivial. now apply (acore_ext K2 s).
Qed.

Lemma below_row r b : r < b * rp -> r / rp < b.
Proof. intros H. apply N.div_lt_upper_bound; [trivial|lia]. Qed.
Lemma row_div r : r / rp * rp <= r < (r / rp + 1) * rp.
Proof. pose proof (N.div_mod r rp Zr) as H1. pose proof (N.mod_lt r rp Zr) as H2. rewrite (N.mul_comm rp) in H1. revert H1 H2. generalize (r / rp) (r mod rp). intros q w H1 H2. rewrite N.mul_add_distr_r, N.mul_1_l. lia. Qed.

Lemma blk b i : i < rp -> (b * rp + i) / rp = b /\ (b * rp + i) mod rp = i.
Proof. intros L. split; symmetry; [apply (N.div_unique _ _ _ i)|apply (N.mod_unique _ _ b)]; lia. Qed.

(** the last row of a block *)
Lemma next_block m : 0 < m -> (m - 1) / rp <> m / rp -> m mod rp = 0 /\ ((m - 1) / rp + 1) * rp = m /\ (m - 1) / rp < m / rp.
Proof.
  intros P H. pose proof (row_div m) as H1. pose proof (row_div (m - 1)) as H2. pose proof (N.div_mod m rp Zr) as H3. pose proof (N.mod_lt m rp Zr) as H4.
  assert ((m - 1) / rp <= m / rp) by (apply N.div_le_mono; [trivial|lia]). assert (H6 : ((m - 1) / rp + 1) * rp <= m / rp * rp) by (apply N.mul_le_mono_r; lia).
  clear - P H H1 H2 H3 H4 H0 H6. rewrite (N.mul_comm rp) in H3. lia.
Qed.

Lemma ab_full m b x : (b + 1) * rp <= m -> ab m b x -> ab (m + 1) b x.
Proof.
  intros L ((Lx & Hx) & P). split; [split; trivial|].
  - intros i row Hi. destruct (Hx i row Hi) as (H1 & H2 & H3 & H4). split; trivial. split; trivial. assert (i < length x)%nat by (apply nth_error_Some; congruence).
    split; [intros _; apply H3; nia|intros Q; exfalso; nia].
  - intros r Hr Hb. apply P; trivial. pose proof (row_div r). rewrite Hb in H. lia.
Qed.

Lemma whole_encodable Q b x : whole Q rp b x -> encodable e rp na x = true.
Proof.
  intros (L & G). unfold encodable. apply andb_true_intro. split; [apply N.leb_le; lia|].
  apply forallb_forall. intros rw Hin. apply In_nth_error in Hin. destruct Hin as (i & Hi). destruct (G i rw Hi) as (G1 & G2 & _).
  rewrite G2, Nat.eqb_refl. cbn [andb]. destruct (af e) eqn:A; [|reflexivity]. cbn [negb orb]. destruct (Ha eq_refl (b * rp + N.of_nat i)) as (A1 & A2).
  rewrite <- G1 in A1, A2. cbn in A1, A2. apply andb_true_intro. split; now apply Nat.ltb_lt.
Qed.

(** nothing of a block that is loaded was put *)
Lemma loaded_rows m r : K <= m -> m = K \/ m mod rp = 0 -> nb <= m / rp -> r < m -> r / rp = m / rp -> False.
Proof.
  intros Km E L Hr Hb. pose proof (row_div r) as (H1 & _). rewrite Hb in H1. destruct E as [E|E].
  - assert (Q : ~ m / rp * rp < K) by (intros Q; apply Hk in Q; lia). lia.
  - pose proof (N.div_mod m rp Zr) as H2. rewrite E, N.mul_comm in H2. lia.
Qed.

Lemma ab_stored m y : K <= m -> m = K \/ m mod rp = 0 -> f (m / rp) = Some y -> ab m (m / rp) (decoded e rp (m / rp) (dec e rp na (m / rp) y)).
Proof.
  intros Km E Hy. set (b := m / rp) in *. assert (Lb : b < nb) by (apply Hf; congruence). assert (Q : b * rp < K) by now apply Hk.
  assert (m = K). { destruct E as [E|E]; trivial. pose proof (N.div_mod m rp Zr) as H2. rewrite E, N.mul_comm in H2. fold b in H2. lia. } subst m.
  assert (U : updated_block f rp na (fun _ => None) b (decoded e rp b (dec e rp na b y))).
  { apply (ublock_decoded f nb rp na (fun r => r < K)); trivial. }
  destruct U as (L & U). destruct (proj2 Rd b y Hy) as (Ly & F). split; [split; [lia|]|].
  - intros i row Hi. destruct (U i row Hi) as (U1 & U2). split; trivial. unfold updated_row in U2.
    assert (i < N.to_nat rp)%nat by (rewrite <- L; apply nth_error_Some; congruence). destruct (blk b (N.of_nat i)) as (B1 & B2); [lia|].
    split; [|split].
    + unfold stored_row in U2. rewrite B1, Hy in U2. rewrite Forall_forall in F. apply F. eapply nth_error_In; eauto.
    + intros Q'. unfold new_row. now rewrite (proj2 (N.ltb_lt _ _) Q').
    + intros _. rewrite B1. now rewrite (proj2 (N.ltb_lt _ _) Lb).
  - intros r _ _. rewrite L. pose proof (N.mod_lt r rp Zr). lia.
Qed.

Lemma ab_junk m rows : K <= m -> m = K \/ m mod rp = 0 -> nb <= m / rp -> (m / rp + 1) * rp <= K2 ->
  N.of_nat (length rows) = rp -> Forall (fun v => length v = nSamp e) rows -> ab m (m / rp) (decoded e rp (m / rp) rows).
Proof.
  intros Km E L Lk Lr F. assert (W : whole (fun _ _ => True) rp (m / rp) (decoded e rp (m / rp) rows)) by now apply whole_decoded.
  destruct W as (Lx & W). split; [split; trivial|].
  - intros i row Hi. destruct (W i row Hi) as (W1 & W2 & _). split; trivial. split; trivial.
    assert (i < length (decoded e rp (m / rp) rows))%nat by (apply nth_error_Some; congruence). destruct (blk (m / rp) (N.of_nat i)) as (B1 & B2); [lia|].
    split; [intros Q; exfalso; exact (loaded_rows m _ Km E L Q B1)|]. intros _. rewrite B1. now rewrite (proj2 (N.ltb_ge _ _) L).
  - intros r Hr Hb. exfalso. exact (loaded_rows m r Km E L Hr Hb).
Qed.

Lemma ab_none m : K <= m -> m = K \/ m mod rp = 0 -> nb <= m / rp -> ab m (m / rp) [].
Proof.
  intros Km E L. split; [split; [apply Nat.le_0_l|]|].
  - intros i row Hi. now destruct i.
  - intros r Hr Hb. exfalso. exact (loaded_rows m r Km E L Hr Hb).
Qed.

(** the row is put in its place *)
Lemma ab_set m x x' : K <= m < K2 -> ab m (m / rp) x -> SetData (nSamp e) x (N.to_nat (m mod rp)) (fst (ants e m)) (snd (ants e m)) (D m) = Ok x' -> ab (m + 1) (m / rp) x'.
Proof.
  intros Km ((Lx & Hx) & P) Es.
  destruct (set_ok (nSamp e) x (N.to_nat (m mod rp)) (fst (ants e m)) (snd (ants e m)) (D m) (Kd m Km)) as (x2 & E' & Lb & Rb & Ob).
  rewrite Es in E'. injection E' as <-. pose proof (N.mod_lt m rp Zr) as Lm.
  assert (Mb : m / rp * rp + m mod rp = m) by (rewrite (N.div_mod m rp Zr) at 3; lia).
  assert (Lo : (N.to_nat (m mod rp) <= length x)%nat).
  { destruct (N.eq_dec (m mod rp) 0) as [Z|Z]; [lia|]. assert (Q : (m - 1) / rp = m / rp /\ (m - 1) mod rp = m mod rp - 1).
    { revert Mb Z Lm. clear. generalize (m / rp) (m mod rp). intros q w Mb Z Lm. split; symmetry; [apply (N.div_unique _ _ _ (w - 1))|apply (N.mod_unique _ _ q)]; rewrite ?(N.mul_comm rp); lia. }
    assert (m <> 0) by (intros Q0; apply Z; rewrite Q0; now apply N.mod_0_l).
    destruct Q as (Q1 & Q2). specialize (P (m - 1) ltac:(lia) Q1). rewrite Q2 in P. lia. }
  split; [split; [lia|]|].
  - intros i row Hi. destruct (Nat.eq_dec i (N.to_nat (m mod rp))) as [->|Hn].
    + unfold row_at in Rb. rewrite Hi in Rb. subst row. cbn. rewrite N2Nat.id, Mb. split; [now destruct (ants e m)|]. split; [rewrite firstn_length; pose proof (Kd m Km); lia|].
      split; [|lia]. intros _. unfold new_row. now rewrite (proj2 (N.ltb_ge _ _) (proj1 Km)).
    + specialize (Ob i Hn). unfold row_at in Ob. rewrite Hi in Ob. destruct (nth_error x i) as [rw'|] eqn:Ht.
      * assert (row = rw') by congruence. subst rw'. destruct (Hx i row Ht) as (V1 & V2 & V3 & V4). split; trivial. split; trivial. split; [|intros Q; apply V4; lia].
        intros Q. apply V3. assert (m / rp * rp + N.of_nat i <> m) by lia. lia.
      * exfalso. apply nth_error_None in Ht. assert (i < length x')%nat by (apply nth_error_Some; congruence). lia.
  - intros r Hr Hb. destruct (N.eq_dec r m) as [->|Nr]; [lia|]. specialize (P r ltac:(lia) Hb). lia.
Qed.

Lemma no_last' (s : state e) b : below s b -> last s b = None.
Proof. intros H. destruct (last s b) eqn:E; trivial. assert (b < b) by (apply H; congruence). lia. Qed.

Lemma block_small m : m < 2 ^ 32 -> m / rp < 2 ^ 32.
Proof. intros H. assert (m / rp <= m) by (apply N.div_le_upper_bound; [trivial|nia]). lia. Qed.

(** a changed buffer goes to the cache *)
Lemma acore_store m (s s' : state e) : acore m s -> held_buf m s -> closed s' = closed s -> (closed s = true \/ (cur s + 1) * rp <= m) ->
  changed s' = false -> last s' = upd_map (last s) (cur s) (tb s) -> acore m s'.
Proof.
  intros (C1 & C2) (H1 & H2 & H3 & H4 & H5 & H6) Cl F Ch El. pose proof (row_div (m - 1)) as Rd1. rewrite <- H3 in Rd1. split.
  - intros b x Hx. rewrite El in Hx. unfold upd_map in Hx. rewrite Cl. destruct (N.eqb_spec b (cur s)) as [->|Nb']; [|now apply C1]. injection Hx as <-.
    split; trivial. split; [rewrite H3; apply N.div_le_mono; [trivial|lia]|]. split; [lia|]. split; [rewrite H3; apply block_small; lia|].
    intros Q. destruct F as [F|F]; [congruence|exact F].
  - intros r Hr. right. rewrite El. unfold upd_map. destruct (N.eqb_spec (r / rp) (cur s)) as [Q|Q]; [discriminate|]. destruct (C2 r Hr) as [(_ & Q')|Q']; [congruence|trivial].
Qed.

Lemma acore_unchanged m (s s' : state e) : acore m s -> changed s = false -> last s' = last s -> closed s' = closed s -> acore m s'.
Proof. intros (C1 & C2) Ch El Ec. split; [rewrite El, Ec; exact C1|]. intros r Hr. right. rewrite El. destruct (C2 r Hr) as [(Q & _)|Q]; [congruence|trivial]. Qed.

(** one instruction *)
Lemma ainv_main k (s s' : state e) junk i c : inv f s -> ainv k s -> code s = i :: c -> exec junk s i c = Some s' -> junk_ok s junk ->
  (forall b, i = ILoad b -> b < nblk s -> b < nb \/ (b + 1) * rp <= K2) -> status s' = Running -> ainv k s'.
Proof.
  intros I [R Er En Nk Mg H] Hc E J Sd R'.
  destruct H as [H C M Q B|m Ek M M32 H C Q B|m Ek M M32 H Cu C Q U B|m Ek M M32 H C Q Cu B|m Ek M M32 H C Q Ch Tb B Em|Ek H C Q B|Ek H C Q Ch].
  - destruct H as [H|(H & Ek)]; rewrite Hc in H; [discriminate|]. injection H as -> ->. subst k. cbn [exec] in E. injection E as <-. constructor; sm; trivial.
    assert (Q' : forall s', last s' = last s -> changed s' = changed s -> cur s' = cur s -> closed s' = true -> acore K2 s').
    { intros s' E1 E2 E3 E4. destruct Q as (Q1 & Q2). split; [|rewrite E1, E2, E3; exact Q2]. intros b x Hx. rewrite E1 in Hx. destruct (Q1 b x Hx) as (G1 & G2 & G3 & G4 & _). rewrite E4. repeat (split; trivial). discriminate. }
    destruct B as [(_ & _ & B & _)|B]; [lia|]. pose proof B as (_ & _ & _ & Ch & _). rewrite Ch. apply A_cstore; sm; trivial. now apply Q'.
  - destruct H as [H|H]; rewrite Hc in H; injection H as -> ->; cbn [exec] in E; rewrite Er in E; (destruct (N.eqb_spec rp 0) as [Z|_]; [easy|]).
    + injection E as <-. constructor; sm; trivial. apply (A_put _ _ m); sm; trivial. now right.
    + destruct (N.eqb_spec (m / rp) (cur s)) as [Eq|Nq].
      * injection E as <-. constructor; sm; trivial. destruct B as [(B & _)|(B1 & B2 & B3 & B4 & B5 & B6)].
        -- exfalso. rewrite B in Eq. pose proof (block_small m M32) as Lb. rewrite Eq in Lb. now apply (N.lt_irrefl (2 ^ 32)); revert Lb; unfold noBlock; vm_compute.
        -- rewrite <- Eq in B5, B6. apply (A_tail _ _ m); sm; trivial; congruence.
      * destruct (changed s) eqn:Ch; injection E as <-; constructor; sm; trivial; (destruct B as [(B1 & B2 & B3 & B4 & B5)|B]; [|]).
        -- congruence.
        -- apply (A_store _ _ m); sm; trivial. congruence.
        -- apply (A_load _ _ m); sm; trivial; [|now left]. intros b' Hb. cbn in Hb. now rewrite B5 in Hb.
        -- destruct B as (_ & _ & _ & B & _). congruence.
  - rewrite Hc in H. injection H as -> ->. cbn [exec] in E. injection E as <-. unfold put_buffer in *. cbn [tb set_code] in *.
    destruct (SetData _ _ _ _ _ _) as [x'| |] eqn:Es; [|sm; discriminate..]. constructor; sm; trivial. subst k.
    assert (Ab : ab (m + 1) (m / rp) x') by (apply (ab_set m (tb s)); trivial).
    apply A_idle; sm; trivial; [now left|lia| |].
    + destruct Q as (Q1 & Q2). split.
      * intros b x Hx. cbn in Hx. destruct (Q1 b x Hx) as (G1 & G2 & G3 & G4 & G5). specialize (G5 C). split; [now apply ab_full|]. repeat (split; [lia|]). intros _. lia.
      * intros r Hr. sm. destruct (N.eq_dec r m) as [->|Nr]; [left; now split|]. destruct (Q2 r ltac:(lia)) as [(_ & Q3)|Q3]; [left; now split|now right].
    + right. unfold held_buf. sm. replace (m + 1 - 1) with m by lia. rewrite Cu. split; [lia|]. split; [lia|]. split; [reflexivity|]. split; [reflexivity|]. split; [exact Ab|]. intros b' Hb. apply B. exact Hb.
  - rewrite Hc in H. injection H as -> ->. cbn [exec] in E. destruct (_ || _); injection E as <-; unfold notify; sm; constructor; sm; trivial.
    + apply (A_store _ _ m); sm; trivial.
    + pose proof B as (B1 & B2 & B3 & B4 & B5 & B6). rewrite B3 in Cu. destruct (next_block m ltac:(lia) Cu) as (N1 & N2 & N3).
      apply (A_load _ _ m); sm; trivial; [|intros b' Hb|now right].
      * apply (acore_store m s); sm; trivial. right. rewrite B3. lia.
      * cbn in Hb. unfold upd_map in Hb. destruct (N.eqb_spec b' (cur s)) as [Q'|Q']; [rewrite Q', B3; exact N3|]. specialize (B6 _ Hb). rewrite B3 in B6. lia.
  - rewrite Hc in H. injection H as -> ->. cbn [exec] in E. injection E as <-. revert R'. unfold load. sm. subst k.
    pose proof (no_last' s (m / rp) B) as Nl. rewrite (not_cached f s (m / rp) I Nl). cbv iota. sm.
    destruct (N.ltb_spec (m / rp) (nblk s)) as [Lb|Lb]; cbv iota; sm.
    + rewrite (i_file _ _ I (m / rp) Nl). destruct (f (m / rp)) as [y|] eqn:Fy; [|destruct junk as [rows|]].
      * intros _. rewrite Er, En. constructor; sm; trivial. apply (A_tail _ _ m); sm; trivial; [now apply (acore_unchanged m s)|]. now apply ab_stored.
      * intros _. rewrite Er. destruct J as (J1 & J2). rewrite Er in J1.
        assert (Lb' : nb <= m / rp).
        { destruct (N.lt_ge_cases (m / rp) nb) as [Q'|Q']; trivial. exfalso. apply Hk in Q'. apply (proj1 Rd) in Q'. rewrite N.div_mul in Q' by trivial. easy. }
        constructor; sm; trivial. apply (A_tail _ _ m); sm; trivial; [now apply (acore_unchanged m s)|]. apply ab_junk; trivial; [lia|]. destruct (Sd (m / rp) eq_refl Lb) as [Q'|Q']; [lia|trivial].
      * sm. discriminate.
    + intros _. constructor; sm; trivial. apply (A_tail _ _ m); sm; trivial; [now apply (acore_unchanged m s)|]. rewrite Tb. apply ab_none; trivial; lia.
  - rewrite Hc in H. injection H as -> ->. cbn [exec] in E. destruct (_ || _); injection E as <-; unfold notify; sm; constructor; sm; trivial.
    + apply A_cstore; sm; trivial.
    + apply A_closed; sm; trivial; [now left|]. apply (acore_store K2 s); sm; trivial. now left.
  - destruct H as [H|[H|H]]; rewrite Hc in H; try discriminate; injection H as -> ->; cbn [exec] in E.
    + destruct (workers s) eqn:Ew.
      * destruct (cache s) eqn:Ec; injection E as <-; [|sm; discriminate]. constructor; sm; trivial. apply A_closed; sm; trivial; now (left + right; right).
      * destruct (cache s) eqn:Ec; injection E as <-; unfold notify; constructor; sm; trivial; (apply A_closed; sm; trivial); [right; now left|now left].
    + destruct (forallb _ _); [|discriminate]. injection E as <-. constructor; sm; trivial. apply A_closed; sm; trivial. right. now right.
Qed.

Lemma acode_core k (s : state e) : acode k s -> exists m, m <= K2 /\ acore m s /\ (closed s = true -> m = K2).
Proof.
  intros [H C M Q B|m Ek M M32 H C Q B|m Ek M M32 H Cu C Q U B|m Ek M M32 H C Q Cu B|m Ek M M32 H C Q Ch Tb B Em|Ek H C Q B|Ek H C Q Ch];
    eexists; (split; [|split; [exact Q|]]); try lia; try trivial; congruence.
Qed.

(** a block that waits can be encoded *)
Lemma picked_append k (s : state e) b x : inv f s -> ainv k s -> In (WPicked b x) (workers s) ->
  last s b = Some x /\ exists m, m <= K2 /\ ab m b x /\ K / rp <= b /\ b * rp < m /\ b < 2 ^ 32 /\ ((b + 1) * rp <= m \/ m = K2) /\ (closed s = false -> (b + 1) * rp <= m).
Proof.
  intros I U Hin. destruct (acode_core _ _ (a_code _ _ U)) as (m & Lm & (K1 & K0) & Cm). assert (Hl : last s b = Some x) by (eapply (i_last _ _ I), (i_picked _ _ I); exact Hin).
  split; trivial. exists m. destruct (K1 b x Hl) as (G1 & G2 & G3 & G4 & G5). repeat (split; trivial). destruct (closed s); [right; now apply Cm|left; now apply G5].
Qed.

(** the rows of a block that is encoded *)
Lemma ab_rows m b x : (b + 1) * rp <= m \/ m = K2 -> m <= K2 -> ab m b x -> forall i row, nth_error x i = Some row ->
  (antenna1 row, antenna2 row) = ants e (b * rp + N.of_nat i) /\ length (visibilities row) = nSamp e /\ (i < N.to_nat rp)%nat /\
  ((b * rp + N.of_nat i < m /\ new_row (b * rp + N.of_nat i) (visibilities row)) \/ (m <= b * rp + N.of_nat i /\ b < nb /\ stored (b * rp + N.of_nat i) = Some (visibilities row))).
Proof.
  intros E Lm ((Lx & Hx) & _) i row Hi. destruct (Hx i row Hi) as (H1 & H2 & H3 & H4). split; trivial. split; trivial.
  assert (Li : (i < N.to_nat rp)%nat) by (eapply Nat.lt_le_trans; [|exact Lx]; apply nth_error_Some; congruence). split; trivial.
  destruct (blk b (N.of_nat i)) as (B1 & B2); [lia|]. destruct (N.lt_ge_cases (b * rp + N.of_nat i) m) as [Q|Q]; [left; split; auto|right]. split; trivial.
  specialize (H4 Q). rewrite B1 in H4. destruct (N.ltb_spec b nb) as [Lb|Lb]; [now split|]. exfalso. rewrite N.mul_add_distr_r, N.mul_1_l in *. lia.
Qed.

Lemma ainv_worker k (s s' : state e) y j w w' : inv f s -> ainv k s -> nth_error (workers s) j = Some w -> wexec y s w = Some (s', w') -> ainv k (set_worker s' j w').
Proof.
  intros I U Hw E. pose proof U as [R Er En Nk Mg H].
  destruct w as [| | |b x|b|]; cbn [wexec] in E; unfold pick in E.
  - destruct (stopF s); [|destruct (isWriteItemAvailable (cache s)) as [(b & x)|]]; injection E as <- <-; constructor; sm; trivial; now apply (acode_ext k s).
  - discriminate.
  - destruct (isWriteItemAvailable (cache s)) as [(b & x)|]; injection E as <- <-; constructor; sm; trivial; now apply (acode_ext k s).
  - destruct (picked_append k s b x I U (nth_error_In _ _ Hw)) as (_ & m & _ & (Wx & _) & _ & _ & L32 & _). rewrite Er, En, (whole_encodable _ b x Wx) in E.
    rewrite Mg in E. injection E as <- <-. constructor; sm; trivial; [|now apply (acode_ext k s)].
    destruct (N.leb_spec (nblk s) b) as [Q|Q]; [|trivial]. rewrite N.mod_small; [unfold set_worker; cbn [nblk set_threads set_file]; clear - Q Nk; lia|]. clear - L32. change (2 ^ 32) with 4294967296 in L32. change (2 ^ 64) with 18446744073709551616. lia.
  - injection E as <- <-. unfold notify. constructor; sm; trivial. now apply (acode_ext k s).
  - discriminate.
Qed.

Lemma ainv_step k (s s' : state e) : inv f s -> ainv k s -> step s s' -> code s <> [] \/ code s' = [] ->
  (forall b c, code s = ILoad b :: c -> b < nblk s -> b < nb \/ (b + 1) * rp <= K2) -> status s' = Running -> ainv k s'.
Proof.
  intros I U St Nc Sd R'. inversion St as [? Si|a R0 C0 C1 A|j Hj|Hj|j H1 H2 H3]; subst.
  - inversion Si as [junk i c ? _ Hc Mw E J|j w y s1 w1 _ Hw Hy E]; subst; [|eapply ainv_worker; eauto].
    eapply ainv_main; eauto. intros b ->. exact (Sd b c Hc).
  - destruct Nc as [Nc|Nc]; [congruence|]. destruct a; discriminate.
  - destruct U. constructor; sm; trivial. now apply (acode_ext k s).
  - destruct U. constructor; sm; trivial. now apply (acode_ext k s).
  - destruct U. constructor; sm; trivial; [lia|]. now apply (acode_ext k s).
Qed.

Lemma appending_reach k (s : state e) : appending k s -> reach (opened e f nb rp na) s.
Proof.
  intros H. induction H as [|k s H IH R C0 C1 L L2|s H IH R C0 C1|k s s' H IH R St Nc Sd]; [constructor|..]; eapply reach_step; eauto; now constructor.
Qed.

Lemma S1 : starts (opened e f nb rp na).
Proof. now constructor. Qed.

Lemma idle_append k (s : state e) : ainv k s -> code s = [] -> closed s = false -> K <= k <= K2 /\ acore k s /\ abuf k s.
Proof.
  intros [R Er En Nk Mg H] C0 C1.
  destruct H as [H C M Q B|m Ek M M32 H C Q B|m Ek M M32 H Cu C Q U B|m Ek M M32 H C Q Cu B|m Ek M M32 H C Q Ch Tb B Em|Ek H C Q B|Ek H C Q Ch]; try congruence.
  - now repeat (split; trivial).
  - destruct H as [H|H]; congruence.
Qed.

Lemma ainv_appending k (s : state e) : appending k s -> status s = Running -> ainv k s.
Proof.
  intros H. induction H as [|k s H IH R C0 C1 L L2|s H IH R C0 C1|k s s' H IH R St Nc Sd]; intros Rs.
  - constructor; trivial; [apply N.le_refl|]. apply A_idle; trivial; [now left|lia| |].
    + split; [discriminate|]. intros r Hr. lia.
    + left. now repeat split.
  - destruct (idle_append _ _ (IH R) C0 C1) as (M & Q & B). destruct (IH R) as [_ Er En Nk Mg _]. constructor; sm; trivial.
    apply (A_put _ _ k); sm; trivial; [lia|now left].
  - destruct (idle_append _ _ (IH R) C0 C1) as (M & Q & B). destruct (IH R) as [_ Er En Nk Mg _]. constructor; sm; trivial. apply A_idle; sm; trivial. right. now split.
  - apply (ainv_step k s); trivial; [|now apply IH]. apply (inv_reach (opened e f nb rp na)); trivial; [exact S1|now apply (appending_reach k)].
Qed.

(** ** Results *)
(** only reading a block that another column wrote can fail *)
Lemma append_fails k (s s' : state e) : appending k s -> status s = Running -> step s s' -> code s <> [] \/ code s' = [] ->
  status s' = Running \/ exists b c, code s = ILoad b :: c.
Proof.
  intros H R St Nc. pose proof (ainv_appending k s H R) as U. pose proof (inv_reach _ _ NT S1 (appending_reach k s H) R) as I.
  inversion St as [? Si|a R0 C0 C1 A|j Hj|Hj|j H1 H2 H3]; subst; try (left; exact R).
  inversion Si as [junk i c ? _ Hc Mw E J|j w y s1 w1 _ Hw Hy E]; subst; [|left; apply (ainv_worker k s s1 y j w w1 I U Hw E)].
  pose proof U as [_ Er En Nk Mg H']. destruct H' as [H' C M Q B|m Ek M M32 H' C Q B|m Ek M M32 H' Cu C Q U' B|m Ek M M32 H' C Q Cu B|m Ek M M32 H' C Q Ch Tb B Em|Ek H' C Q B|Ek H' C Q Ch];
    [|destruct H' as [H'|H']| | | | |]; try (rewrite Hc in H'; injection H' as -> ->); cbn [exec] in E.
  - left. destruct H' as [H'|(H' & _)]; rewrite Hc in H'; [discriminate|]. injection H' as -> ->. cbn [exec] in E. injection E as <-. exact R.
  - left. rewrite Er in E. destruct (N.eqb_spec rp 0); [easy|]. injection E as <-. exact R.
  - left. rewrite Er in E. destruct (N.eqb_spec rp 0); [easy|]. destruct (_ =? _); injection E as <-; exact R.
  - left. injection E as <-. unfold put_buffer. cbn [tb set_code].
    destruct (set_ok (nSamp e) (tb s) (N.to_nat (m mod rp)) (fst (ants e m)) (snd (ants e m)) (D m) (Kd m M)) as (x2 & E' & _). rewrite E'. exact R.
  - left. destruct (_ || _); injection E as <-; exact R.
  - right. eauto.
  - left. destruct (_ || _); injection E as <-; exact R.
  - left. destruct H' as [H'|[H'|H']]; rewrite Hc in H'; try discriminate; injection H' as -> ->; cbn [exec] in E.
    + pose proof (i_phase _ _ I) as P. rewrite Hc in P. destruct (workers s) eqn:Ew.
      * destruct (cache s) eqn:Ec; injection E as <-; [exact R|].
        inversion P; subst; try (match goal with H : maybe_store ?st ++ _ = _ |- _ => destruct st; discriminate end); exfalso; match goal with H : rpb s <> 0 -> workers s <> [] |- _ => apply H; congruence end.
      * destruct (cache s) eqn:Ec; injection E as <-; exact R.
    + destruct (forallb _ _); [|discriminate]. injection E as <-. exact R.
Qed.

(** what the file holds in the end *)
Lemma append_closed k (s : state e) : appending k s -> status s = Running -> closed s = true -> code s = [] -> k = K2 /\
  (forall b x, last s b = Some x -> exists y, file s b = Some y /\ enc e rp na x y /\ ab K2 b x /\ K / rp <= b /\ b * rp < K2) /\
  (forall b, last s b = None -> file s b = f b) /\
  (forall r, K <= r < K2 -> last s (r / rp) <> None).
Proof.
  intros H R Cl C0. pose proof (ainv_appending k s H R) as [_ Er En Nk Mg U].
  destruct (on_disk _ s NT S1 (appending_reach k s H) R Cl C0) as (_ & _ & D1 & D2). cbn in D2. rewrite Er, En in D1.
  assert (Q : k = K2 /\ acore K2 s /\ changed s = false).
  { destruct U as [H' C M Q B|m Ek M M32 H' C Q B|m Ek M M32 H' Cu C Q U' B|m Ek M M32 H' C Q Cu B|m Ek M M32 H' C Q Ch Tb B Em|Ek H' C Q B|Ek H' C Q Ch]; try congruence. split; trivial. split; trivial. }
  destruct Q as (-> & (Q1 & Q2) & Ch). split; trivial. split; [|split; trivial].
  - intros b x Hx. destruct (D1 b x Hx) as (y & Y1 & Y2). exists y. destruct (Q1 b x Hx) as (G1 & G2 & G3 & _). now repeat (split; trivial).
  - intros r Hr. destruct (Q2 r Hr) as [(Q & _)|Q]; [congruence|trivial].
Qed.
End append.
