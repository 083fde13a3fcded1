(** Reading and overwriting rows of an opened column, also going back: the column behaves
    as the column without threads of the specification. *)
From Verif Require Import Base BaseLemmas TimeBlockBuffer TbbSpec TbbProofs Column ColumnSpec RewriteSpec ColumnProofs ColumnInv ColumnReach ColumnTerm ColumnData ColumnWhole.
Local Open Scope N_scope.
Local Arguments busy : simpl never. Local Arguments upd : simpl never. Local Arguments insert : simpl never.
Local Arguments erase : simpl never. Local Arguments cached : simpl never. Local Arguments markWritten : simpl never.
Local Arguments maxCache : simpl never.

Lemma set_nth_length {A} (l : list A) k a : length (set_nth l k a) = length l.
Proof. revert k. induction l as [|b l IH]; intros [|k]; cbn; congruence. Qed.
Lemma set_nth_same {A} (l : list A) k a : (k < length l)%nat -> nth_error (set_nth l k a) k = Some a.
Proof. revert k. induction l as [|b l IH]; intros [|k] H; cbn in *; try lia; trivial. apply IH. lia. Qed.
Lemma set_nth_other {A} (l : list A) k j a : j <> k -> nth_error (set_nth l k a) j = nth_error l j.
Proof. revert k j. induction l as [|b l IH]; intros [|k] [|j] H; cbn; trivial; [easy|]. apply IH. lia. Qed.
Lemma set_nth_Forall {A} (P : A -> Prop) (l : list A) k a : Forall P l -> P a -> Forall P (set_nth l k a).
Proof. intros H Ha. revert k. induction H; intros [|k]; cbn; auto. Qed.

(** ** The column of the specification *)
Section spec.
Context {e : env} (f : N -> option (bytes e)) (rp : N) (na : nat).
Notation runs := (runs rp na f).

Lemma enters_at (c c1 : column e) b : enters rp na c b c1 -> at_block c1 = Some b.
Proof. intros []; trivial. Qed.
Lemma enters_given (c c1 : column e) b : enters rp na c b c1 -> given c1 = given c.
Proof. intros []; trivial. Qed.

Lemma put_away_none (c : column e) b : put_away c b = None -> blocks c b = None.
Proof. unfold put_away. destruct (at_block c), (dirty c); trivial. destruct (_ =? _); [discriminate|trivial]. Qed.

Lemma enters_none (c c1 : column e) b b' : enters rp na c b c1 -> blocks c1 b' = None -> blocks c b' = None.
Proof.
  intros []; cbn; trivial; [apply put_away_none|]. destruct (_ =? _); [discriminate|apply put_away_none].
Qed.

Lemma runs_at l c : runs l c -> at_block c = open_block rp l.
Proof. intros [|l0 c0 a c1 _ [row d c2 H|row v c2 H _]]; cbn; trivial; now apply enters_at in H. Qed.

Lemma runs_none l c b : runs l c -> f b <> None -> blocks c b <> None.
Proof.
  intros H Hf. induction H as [|l c a c' H IH D]; cbn; [now destruct (f b)|].
  destruct D as [row d c1 En|row v c1 En _]; cbn; intros Q; now apply IH, (enters_none _ _ _ _ En).
Qed.

Lemma runs_coded l c : runs l c -> (forall b v, blocks c b = Some (Coded v) -> unread rp l b) /\ (dirty c = true -> forall b, at_block c = Some b -> unread rp l b).
Proof.
  intros H. induction H as [|l c a c' H IH D].
  - cbn. split; [|discriminate]. intros b v. now destruct (f b).
  - destruct IH as (I1 & I2). assert (Pa : forall b v, put_away c b = Some (Coded v) -> unread rp l b).
    { intros b v. unfold put_away. destruct (at_block c) as [b0|] eqn:Ea; [|apply I1]. destruct (dirty c); [|apply I1]. destruct (N.eqb_spec b b0) as [->|_]; [|apply I1]. intros _. auto. }
    pose proof (runs_at l c H) as Ea. destruct D as [row d c1 En|row v c1 En _]; cbn.
    + split; [|intros _ b Hb; left; apply enters_at in En; congruence]. intros b v Hv. right.
      destruct En as [_|y _ _|v0 y _ _ _]; cbn in Hv; eauto. destruct (b =? row / rp); [discriminate|eauto].
    + destruct En as [Eh|y Nh Ey|v0 y Nh Ey Cy]; cbn.
      * rewrite <- Ea. split; [intros b w Hw|intros Hd b Hb]; (split; [intros (Q1 & Q2); congruence|eauto]).
      * split; [|discriminate]. intros b w Hw. split; [|eauto]. intros (Q & _). congruence.
      * split; [|discriminate]. intros b w Hw. destruct (N.eqb_spec b (row / rp)) as [->|Nb]; [discriminate|]. split; [|eauto]. intros (Q & _). congruence.
Qed.

(** blocks in which no row is put keep their bytes *)
Lemma runs_kept l c b : runs l c -> never_put rp l b -> put_away c b = option_map Bytes (f b).
Proof.
  intros H Nv. assert (X : blocks c b = option_map Bytes (f b) /\ (at_block c = Some b -> dirty c = false)).
  { induction H as [|l c a c' H IH D]; cbn; [split; [trivial|discriminate]|].
    destruct IH as (I1 & I2); [intros r d Hin; apply (Nv r d); now right|].
    assert (Pa : put_away c b = option_map Bytes (f b)).
    { unfold put_away. destruct (at_block c) as [b0|] eqn:Ea; trivial. destruct (dirty c); trivial. destruct (N.eqb_spec b b0) as [->|_]; trivial. now specialize (I2 eq_refl). }
    assert (En : forall r c1, enters rp na c (r / rp) c1 -> blocks c1 b = option_map Bytes (f b) /\ (at_block c1 = Some b -> dirty c1 = false)).
    { intros r c1 En. destruct En as [_|y _ _|v y _ Ey _]; cbn; auto. split; trivial. destruct (N.eqb_spec b (r / rp)) as [->|_]; trivial. rewrite Pa in Ey. now destruct (f _). }
    destruct D as [row d c1 E|row v c1 E _]; cbn; destruct (En _ _ E) as (Q1 & Q2); split; trivial.
    intros Q. exfalso. apply (Nv row d); [now left|]. apply enters_at in E. congruence. }
  destruct X as (X1 & X2). unfold put_away. destruct (at_block c) as [b0|] eqn:Ea; trivial. destruct (dirty c); trivial. destruct (N.eqb_spec b b0) as [->|_]; trivial. now specialize (X2 eq_refl).
Qed.
End spec.

Section rewrite.
Context {e : env} (f : N -> option (bytes e)) (nb rp : N) (na : nat) (ok : N -> Prop) (okd : list (data e) -> Prop) (good : bytes e -> Prop) (okv : list (data e) -> Prop).
Definition fine (v : list (list (data e))) : Prop := length v = N.to_nat rp /\ Forall (fun r => length r = nSamp e /\ okv r) v.
Hypotheses (Zr : rp <> 0) (Nb : nb < 2 ^ 64) (Hf : forall b, f b <> None -> b < nb) (Hok : forall r, ok r -> f (r / rp) <> None)
  (Hg : forall b y, f b = Some y -> good y) (Gd : forall b y, good y -> fine (dec e rp na b y))
  (Ge : forall b x v y, table_rows rp b x v -> fine v -> enc e rp na x y -> good y)
  (Kd : forall d, okd d -> (nSamp e <= length d)%nat /\ okv (firstn (nSamp e) d))
  (NT : (nthreads e <> 0)%nat) (Ha : af e = true -> forall r, (fst (ants e r) < na)%nat /\ (snd (ants e r) < na)%nat).
Notation runs := (runs rp na f).
Notation table_rows := (table_rows rp).

Definition core (B : N -> option (content e)) (s : state e) : Prop := forall b,
  match B b with
  | Some (Bytes y) => file s b = Some y /\ cached (cache s) b = false /\ good y /\ b < nb
  | Some (Coded v) => exists x, last s b = Some x /\ table_rows b x v /\ fine v /\ b < nb
  | None => file s b = None /\ cached (cache s) b = false
  end.

(** the buffer holds the open block *)
Definition opn (c : column e) (s : state e) : Prop :=
  changed s = dirty c /\
  match at_block c with
  | None => cur s = noBlock /\ dirty c = false
  | Some b => cur s = b /\ table_rows b (tb s) (rows c) /\ fine (rows c) /\ exists y, blocks c b = Some (Bytes y)
  end.

Definition okc (a : rowcall (data e)) : Prop := ok (row_of a) /\ row_of a < 2 ^ 32 /\ match a with CPut _ d => okd d | CGet _ => True end.
Definition tail (a : rowcall (data e)) : instr (data e) := match a with CPut row d => ISet (row mod rp) row d | CGet row => IRead row end.
Notation blk a := (row_of a / rp).

Inductive rcode (l : list (rowcall (data e))) (s : state e) : Prop :=
| R_idle c : runs l c -> given c = outs s -> code s = [] \/ code s = [IShutdown] -> closed s = false -> core (blocks c) s -> opn c s -> rcode l s
| R_get l0 c row : l = CGet row :: l0 -> okc (CGet row) -> runs l0 c -> given c = outs s ->
    code s = [IGet row] \/ code s = [IWaitNot (row / rp); IGetRow row] \/ (code s = [IGetRow row] /\ cached (cache s) (row / rp) = false) ->
    closed s = false -> core (blocks c) s -> opn c s -> rcode l s
| R_put l0 c row d : l = CPut row d :: l0 -> okc (CPut row d) -> runs l0 c -> given c = outs s -> code s = [IPut row d] \/ code s = [IPutRow row d] ->
    at_block c = Some (row / rp) \/ (exists y, blocks c (row / rp) = Some (Bytes y)) ->
    closed s = false -> core (blocks c) s -> opn c s -> rcode l s
| R_tail l0 a c c1 : l = a :: l0 -> okc a -> runs l0 c -> enters rp na c (blk a) c1 -> given c1 = outs s -> code s = [tail a] ->
    closed s = false -> core (blocks c1) s -> opn c1 s -> rcode l s
| R_store l0 a c : l = a :: l0 -> okc a -> runs l0 c -> given c = outs s -> code s = [IStore; ILoad (blk a); tail a] ->
    at_block c <> Some (blk a) -> cached (cache s) (blk a) = false -> changed s = true ->
    closed s = false -> core (blocks c) s -> opn c s -> rcode l s
| R_load l0 a c : l = a :: l0 -> okc a -> runs l0 c -> given c = outs s -> code s = [ILoad (blk a); tail a] ->
    at_block c <> Some (blk a) -> cached (cache s) (blk a) = false -> changed s = false -> closed s = false -> core (put_away c) s -> rcode l s
| R_cstore c : runs l c -> given c = outs s -> code s = [IStore; IStop] -> closed s = true -> changed s = true -> core (blocks c) s -> opn c s -> rcode l s
| R_closed c : runs l c -> given c = outs s -> code s = [IStop] \/ code s = [IJoin] \/ code s = [] -> closed s = true -> changed s = false -> core (put_away c) s -> rcode l s.

Record rinv (l : list (rowcall (data e))) (s : state e) : Prop := {
  r_run : status s = Running; r_rpb : rpb s = rp; r_nant : nant s = na; r_nblk : nb <= nblk s; r_mgr : mgr s = false; r_code : rcode l s }.

(** blocks that do not wait stay as they are *)
Definition calm (s s' : state e) : Prop := forall b, cached (cache s) b = false -> cached (cache s') b = false /\ file s' b = file s b.

Lemma calm_same (s s' : state e) : cache s' = cache s -> file s' = file s -> calm s s'.
Proof. intros E1 E2 b. now rewrite E1, E2. Qed.

Lemma core_mono B (s s' : state e) : core B s -> last s' = last s -> calm s s' -> core B s'.
Proof.
  intros H E Cm b. specialize (H b). destruct (B b) as [[y|v]|].
  - destruct H as (H1 & H2 & H3). destruct (Cm b H2) as (C1 & C2). rewrite C2. auto.
  - now rewrite E.
  - destruct H as (H1 & H2). destruct (Cm b H2) as (C1 & C2). rewrite C2. auto.
Qed.

Lemma opn_ext c (s s' : state e) : opn c s -> changed s' = changed s -> cur s' = cur s -> tb s' = tb s -> opn c s'.
Proof. unfold opn. intros H -> -> ->. exact H. Qed.

Lemma rcode_ext l (s s' : state e) : rcode l s -> last s' = last s -> calm s s' -> changed s' = changed s -> cur s' = cur s -> tb s' = tb s -> closed s' = closed s -> code s' = code s -> outs s' = outs s -> rcode l s'.
Proof.
  intros H E1 Cm E2 E3 E4 E5 E6 E7.
  destruct H as [c Rn G H C K O|l0 c row El A Rn G H C K O|l0 c row d El A Rn G H B C K O|l0 a c c1 El A Rn En G H C K O|l0 a c El A Rn G H Na Ch X C K O|l0 a c El A Rn G H Na Ch X C K|c Rn G H C X K O|c Rn G H C X K];
    rewrite <- ?E7 in G; rewrite <- ?E6 in H; rewrite <- ?E5 in C; (try rewrite <- E2 in X).
  - apply (R_idle _ _ c); trivial; [now apply (core_mono _ s)|now apply (opn_ext _ s)].
  - apply (R_get _ _ l0 c row); trivial; [|now apply (core_mono _ s)|now apply (opn_ext _ s)]. destruct H as [H|[H|(H & Q)]]; auto. right. right. split; trivial. now apply Cm.
  - apply (R_put _ _ l0 c row d); trivial; [now apply (core_mono _ s)|now apply (opn_ext _ s)].
  - apply (R_tail _ _ l0 a c c1); trivial; [now apply (core_mono _ s)|now apply (opn_ext _ s)].
  - apply (R_store _ _ l0 a c); trivial; [now apply Cm|now apply (core_mono _ s)|now apply (opn_ext _ s)].
  - apply (R_load _ _ l0 a c); trivial; [now apply Cm|now apply (core_mono _ s)].
  - apply (R_cstore _ _ c); trivial; [now apply (core_mono _ s)|now apply (opn_ext _ s)].
  - apply (R_closed _ _ c); trivial. now apply (core_mono _ s).
Qed.

Lemma row_block r : r / rp * rp + r mod rp = r.
Proof. rewrite (N.div_mod r rp) at 3 by trivial. lia. Qed.

Lemma noBlock_row row : row < 2 ^ 32 -> row / rp <> noBlock.
Proof.
  intros L E. assert (row / rp <= row) by (apply N.div_le_upper_bound; [trivial|nia]). rewrite E in H. unfold noBlock in H.
  change (2 ^ 32) with 4294967296 in L. change (2 ^ 64) with 18446744073709551616 in H. lia.
Qed.

Lemma decoded_rows b v : fine v -> table_rows b (decoded e rp b v) v.
Proof.
  intros (L & F). assert (Q : whole (fun _ _ => True) rp b (decoded e rp b v)).
  { apply whole_decoded; trivial; [lia|]. eapply Forall_impl; [|exact F]. intros r Hr. apply Hr. }
  destruct Q as (_ & Q). split; [unfold decoded; rewrite map_length, combine_length, seq_length; lia|].
  intros k row Hk. split; [apply (Q k row Hk)|].
  assert (Lk : (k < length v)%nat). { assert (k < length (decoded e rp b v))%nat by (apply nth_error_Some; congruence). revert H. unfold decoded. rewrite map_length, combine_length, seq_length. lia. }
  destruct (nth_error v k) as [r|] eqn:Hv; [|apply nth_error_None in Hv; lia].
  destruct (decoded_nth rp b v k r Hv) as (rw & R1 & R2). congruence.
Qed.

Lemma rows_encodable b x v : table_rows b x v -> fine v -> encodable e rp na x = true.
Proof.
  intros (L & G) (Lv & F). rewrite Forall_forall in F. unfold encodable. apply andb_true_intro. split; [apply N.leb_le; lia|].
  apply forallb_forall. intros rw Hin. apply In_nth_error in Hin. destruct Hin as (k & Hk). destruct (G k rw Hk) as (G1 & G2). apply nth_error_In in G2. destruct (F _ G2) as (F1 & _).
  rewrite F1, Nat.eqb_refl. cbn [andb]. destruct (af e) eqn:A; [|reflexivity]. cbn [negb orb]. destruct (Ha eq_refl (b * rp + N.of_nat k)) as (A1 & A2).
  rewrite <- G1 in A1, A2. cbn in A1, A2. apply andb_true_intro. split; now apply Nat.ltb_lt.
Qed.

(** a block that waits *)
Lemma core_cached B (s : state e) b x w : inv f s -> core B s -> In (b, (x, w)) (cache s) -> exists v, table_rows b x v /\ fine v /\ b < nb.
Proof.
  intros I K Hin. assert (Ec : cached (cache s) b = true) by (apply cached_In; eauto). pose proof (i_last _ _ I _ _ _ Hin) as El.
  specialize (K b). destruct (B b) as [[y|v]|].
  - destruct K as (_ & K & _). congruence.
  - destruct K as (x' & K1 & K2). exists v. assert (x' = x) by congruence. now subst.
  - destruct K as (_ & K). congruence.
Qed.

Lemma rcode_core l (s : state e) : rcode l s -> exists B, core B s.
Proof. intros []; eauto. Qed.

Lemma picked_block l (s : state e) b x : inv f s -> rinv l s -> In (WPicked b x) (workers s) -> exists v, table_rows b x v /\ fine v /\ b < nb.
Proof. intros I U Hin. destruct (rcode_core _ _ (r_code _ _ U)) as (B & K). eapply core_cached; eauto. eapply (i_picked _ _ I). exact Hin. Qed.

Lemma core_store c (s : state e) : core (blocks c) s -> opn c s -> changed s = true -> core (put_away c)
  (notify (set_last (set_buf (set_threads s (insert (cur s) (tb s, false) (cache s)) (stopF s) (workers s)) (cur s) false []) (upd_map (last s) (cur s) (tb s)))).
Proof.
  intros K (O1 & O2) Ch. rewrite O1 in Ch. destruct (at_block c) as [b0|] eqn:Eb; [|destruct O2; congruence]. destruct O2 as (Ec & Tr & Fi & y & Ey).
  pose proof (K b0) as Kb. rewrite Ey in Kb. destruct Kb as (_ & Cb & _ & Lb).
  intros b. unfold put_away. rewrite Eb, Ch. unfold notify. sm. rewrite Ec. destruct (N.eqb_spec b b0) as [->|Q].
  - exists (tb s). split; [apply upd_map_same|]. auto.
  - specialize (K b). rewrite cached_insert by trivial. destruct (N.eqb_spec b b0) as [|_]; [easy|]. cbn [orb]. destruct (blocks c b) as [[y'|v]|]; trivial.
    now rewrite upd_map_other.
Qed.

Lemma core_ext B (s s' : state e) : core B s -> last s' = last s -> cache s' = cache s -> file s' = file s -> core B s'.
Proof. intros H E1 E2 E3. apply (core_mono B s); trivial. now apply calm_same. Qed.

(** loading a block *)
Lemma load_block l0 a c junk cc (s : state e) : inv f s -> runs l0 c -> okc a -> rpb s = rp -> nant s = na -> nb <= nblk s -> at_block c <> Some (blk a) -> cached (cache s) (blk a) = false ->
  core (put_away c) s -> exists c1 y, enters rp na c (blk a) c1 /\ file s (blk a) = Some y /\ good y /\
    load junk (set_code s cc) (blk a) = set_buf (set_code s cc) (blk a) false (decoded e rp (blk a) (dec e rp na (blk a) y)) /\
    core (blocks c1) s /\ at_block c1 = Some (blk a) /\ rows c1 = dec e rp na (blk a) y /\ dirty c1 = false /\ given c1 = given c /\ blocks c1 (blk a) = Some (Bytes y).
Proof.
  intros I Rn (A1 & A2 & A3) Er En Nk Na Cb K. pose proof (Hok _ A1) as Hb. pose proof (Hf _ Hb) as Lb.
  assert (L : forall y, file s (blk a) = Some y -> load junk (set_code s cc) (blk a) = set_buf (set_code s cc) (blk a) false (decoded e rp (blk a) (dec e rp na (blk a) y))).
  { intros y Hy. unfold load. sm. rewrite Cb. cbv zeta iota. sm. destruct (N.ltb_spec (blk a) (nblk s)) as [_|Q]; [|exfalso; clear - Q Lb Nk; lia]. now rewrite Hy, Er, En. }
  assert (Ne : put_away c (blk a) <> None) by (intros Q; apply put_away_none in Q; revert Q; now apply (runs_none f rp na l0)).
  pose proof (K (blk a)) as Kb. destruct (put_away c (blk a)) as [[y|v]|] eqn:Ep; [..|easy].
  - destruct Kb as (Fy & _ & Gy & _). exists (Col (put_away c) (Some (blk a)) (dec e rp na (blk a) y) false (given c)), y. split; [now apply en_bytes|]. cbn. auto 10.
  - destruct Kb as (x & Lx & Tx & Fv & _). destruct (i_disk _ _ I _ _ Lx Cb) as (y & Fy & Ey). rewrite Er, En in Ey.
    eexists. exists y. split; [apply (en_coded _ _ _ _ v y); trivial; now exists x|]. cbn. split; trivial. assert (Gy : good y) by (eapply Ge; eauto). split; trivial. split; [auto|].
    split; [|rewrite N.eqb_refl; auto 10]. intros b. destruct (N.eqb_spec b (blk a)) as [->|_]; [auto|apply K].
Qed.

(** one instruction *)
Lemma rinv_main l (s s' : state e) junk i cc : inv f s -> rinv l s -> code s = i :: cc -> exec junk s i cc = Some s' -> rinv l s'.
Proof.
  intros I [R Er En Nk Mg H] Hc E.
  destruct H as [c Rn G H C K O|l0 c row El A Rn G H C K O|l0 c row d El A Rn G H B C K O|l0 a c c1 El A Rn Et G H C K O|l0 a c El A Rn G H Na Cb X C K O|l0 a c El A Rn G H Na Cb X C K|c Rn G H C X K O|c Rn G H C X K].
  - destruct H as [H|H]; rewrite Hc in H; [discriminate|]. injection H as -> ->. cbn [exec] in E. injection E as <-. constructor; sm; trivial.
    destruct (changed s) eqn:Ch.
    + apply (R_cstore _ _ c); sm; trivial.
    + apply (R_closed _ _ c); sm; trivial; [now left|]. intros b. destruct O as (O1 & _). unfold put_away. rewrite <- O1, Ch. destruct (at_block c); apply K.
  - pose proof A as (A1 & A2 & _). cbn [row_of] in A1, A2. destruct H as [H|[H|(H & Cb)]]; rewrite Hc in H; injection H as -> ->; cbn [exec] in E.
    + rewrite Er in E. destruct (N.eqb_spec rp 0) as [Z|_]; [easy|]. destruct (N.leb_spec (nblk s) (row / rp)) as [Lb|Lb].
      * exfalso. pose proof (Hf _ (Hok _ A1)) as Q. clear - Q Lb Nk. lia.
      * injection E as <-. constructor; sm; trivial. apply (R_get _ _ l0 c row); sm; trivial. right. now left.
    + destruct (cached (cache s) (row / rp)) eqn:Cb.
      * injection E as <-. constructor; sm; trivial. apply (R_get _ _ l0 c row); sm; trivial. right. now left.
      * injection E as <-. constructor; sm; trivial. apply (R_get _ _ l0 c row); sm; trivial. right. now right.
    + rewrite Er in E. destruct (N.eqb_spec (row / rp) (cur s)) as [Q|Q].
      * injection E as <-. constructor; sm; trivial. apply (R_tail _ _ l0 (CGet row) c c); sm; trivial. apply en_here. destruct O as (_ & O). destruct (at_block c) as [b0|].
        -- destruct O as (O & _). cbn. congruence.
        -- exfalso. destruct O as (O & _). apply (noBlock_row row A2). congruence.
      * assert (Na : at_block c <> Some (row / rp)).
        { cbn. intros Q2. destruct O as (_ & O). rewrite Q2 in O. destruct O as (O & _). congruence. }
        destruct (changed s) eqn:Ch; injection E as <-; constructor; sm; trivial.
        -- apply (R_store _ _ l0 (CGet row) c); sm; trivial.
        -- apply (R_load _ _ l0 (CGet row) c); sm; trivial. intros b. destruct O as (O1 & _). unfold put_away. rewrite <- O1, Ch. destruct (at_block c); apply K.
  - pose proof A as (A1 & A2 & A3). cbn [row_of] in A1, A2. destruct H as [H|H]; rewrite Hc in H; injection H as -> ->; cbn [exec] in E; rewrite Er in E; (destruct (N.eqb_spec rp 0) as [Z|_]; [easy|]).
    + injection E as <-. constructor; sm; trivial. apply (R_put _ _ l0 c row d); sm; trivial. now right.
    + destruct (N.eqb_spec (row / rp) (cur s)) as [Q|Q].
      * injection E as <-. constructor; sm; trivial. apply (R_tail _ _ l0 (CPut row d) c c); sm; trivial. apply en_here. destruct O as (_ & O). destruct (at_block c) as [b0|].
        -- destruct O as (O & _). cbn. congruence.
        -- exfalso. destruct O as (O & _). apply (noBlock_row row A2). congruence.
      * assert (Na : at_block c <> Some (row / rp)).
        { cbn. intros Q2. destruct O as (_ & O). rewrite Q2 in O. destruct O as (O & _). congruence. }
        destruct B as [B|(y & B)]; [now destruct Na|]. pose proof (K (row / rp)) as Kb. rewrite B in Kb. destruct Kb as (_ & Cb & _).
        destruct (changed s) eqn:Ch; injection E as <-; constructor; sm; trivial.
        -- apply (R_store _ _ l0 (CPut row d) c); sm; trivial.
        -- apply (R_load _ _ l0 (CPut row d) c); sm; trivial. intros b. destruct O as (O1 & _). unfold put_away. rewrite <- O1, Ch. destruct (at_block c); apply K.
  - rewrite Hc in H. injection H as -> ->. pose proof (enters_at rp na _ _ _ Et) as Ea. pose proof O as (O1 & O2). rewrite Ea in O2. destruct O2 as (Ec & Tr & Fi & y & Ey).
    destruct a as [row d|row]; cbn [row_of tail] in *; cbn [exec] in E.
    + destruct A as (_ & _ & A3). cbn in A3. destruct (Kd _ A3) as (Ld & Vd). injection E as <-. unfold put_buffer. cbn [tb set_code].
      destruct (set_ok (nSamp e) (tb s) (N.to_nat (row mod rp)) (fst (ants e row)) (snd (ants e row)) d Ld) as (b2 & E' & Lb & Rb & Ob). rewrite E'.
      pose proof (N.mod_lt row rp Zr) as Lm. destruct Tr as (T1 & T2). pose proof Fi as (F1 & F2).
      constructor; sm; trivial.
      apply (R_idle _ _ (Col (blocks c1) (at_block c1) (set_nth (rows c1) (N.to_nat (row mod rp)) (firstn (nSamp e) d)) true (given c1))); sm; trivial; [|now left|].
      * rewrite El. eapply rn_call; [exact Rn|]. now apply do_put.
      * split; [reflexivity|]. cbn [at_block rows blocks]. rewrite Ea. sm. split; trivial. split; [|split; [|eauto]].
        -- split; [rewrite set_nth_length; lia|]. intros k rw Hk. destruct (Nat.eq_dec k (N.to_nat (row mod rp))) as [->|Hn].
           ++ unfold row_at in Rb. rewrite Hk in Rb. subst rw. cbn. rewrite N2Nat.id, row_block. split; [now destruct (ants e row)|]. apply set_nth_same. lia.
           ++ rewrite set_nth_other by trivial. specialize (Ob k Hn). unfold row_at in Ob. rewrite Hk in Ob. destruct (nth_error (tb s) k) as [rw'|] eqn:Ht.
              ** assert (rw = rw') by congruence. subst rw'. auto.
              ** exfalso. apply nth_error_None in Ht. assert (k < length b2)%nat by (apply nth_error_Some; congruence). lia.
        -- split; [now rewrite set_nth_length|]. apply set_nth_Forall; trivial. split; trivial. rewrite firstn_length. lia.
    + rewrite Er in E. unfold GetData in E. destruct (nth_error (tb s) (N.to_nat (row mod rp))) as [rw|] eqn:Gt.
      * injection E as <-. constructor; sm; trivial. destruct (proj2 Tr _ _ Gt) as (_ & Gr).
        apply (R_idle _ _ (Col (blocks c1) (at_block c1) (rows c1) (dirty c1) ((row, AVals (visibilities rw)) :: given c1))); sm; trivial; [|cbn; congruence|now left].
        rewrite El. eapply rn_call; [exact Rn|]. now apply do_get.
      * exfalso. apply nth_error_None in Gt. pose proof (N.mod_lt row rp Zr). destruct Tr as (T1 & _). destruct Fi as (F1 & _). lia.
  - rewrite Hc in H. injection H as -> ->. cbn [exec] in E. destruct (_ || _) eqn:Full; injection E as <-.
    + constructor; sm; trivial. apply (R_store _ _ l0 a c); sm; trivial.
    + constructor; [trivial..|]. apply (R_load _ _ l0 a c); trivial.
      * unfold notify. sm. apply Bool.orb_false_elim in Full as (_ & Full). rewrite cached_insert by trivial. rewrite Cb. destruct (N.eqb_spec (blk a) (cur s)) as [Q|_]; [|reflexivity].
        exfalso. destruct O as (O1 & O). destruct (at_block c) as [b0|]; [destruct O as (O & _); congruence|destruct O; congruence].
      * eapply core_ext; [apply (core_store c s K O X)|reflexivity..].
  - rewrite Hc in H. injection H as -> ->. cbn [exec] in E. injection E as <-.
    destruct (load_block l0 a c junk [tail a] s) as (c1 & y & N1 & Fy & Gy & -> & K1 & At & Rw & Di & Gv & By); trivial.
    constructor; sm; trivial. apply (R_tail _ _ l0 a c c1); sm; trivial; [congruence|]. split; [now rewrite Di|]. rewrite At, Rw. sm. split; trivial. pose proof (Gd (blk a) y Gy) as Fi. split; [now apply decoded_rows|]. eauto.
  - rewrite Hc in H. injection H as -> ->. cbn [exec] in E. destruct (_ || _) eqn:Full; injection E as <-.
    + constructor; sm; trivial. apply (R_cstore _ _ c); sm; trivial.
    + constructor; [trivial..|]. apply (R_closed _ _ c); trivial; [now left|]. eapply core_ext; [apply (core_store c s K O X)|reflexivity..].
  - destruct H as [H|[H|H]]; rewrite Hc in H; try discriminate; injection H as -> ->; cbn [exec] in E.
    + pose proof (i_phase _ _ I) as P. rewrite Hc in P.
      destruct (workers s) eqn:Ew.
      * destruct (cache s) eqn:Ec; injection E as <-; constructor; sm; trivial.
        -- apply (R_closed _ _ c); sm; trivial. right; now right.
        -- inversion P; subst; try (match goal with H : maybe_store ?st ++ _ = _ |- _ => destruct st; discriminate end); exfalso; match goal with H : rpb s <> 0 -> workers s <> [] |- _ => apply H; congruence end.
        -- inversion P; subst; try (match goal with H : maybe_store ?st ++ _ = _ |- _ => destruct st; discriminate end); exfalso; match goal with H : rpb s <> 0 -> workers s <> [] |- _ => apply H; congruence end.
      * destruct (cache s) eqn:Ec; injection E as <-; unfold notify; constructor; sm; trivial; apply (R_closed _ _ c); sm; trivial.
        all: try (right; now left); try (now left); eapply core_ext; eauto; sm; congruence.
    + destruct (forallb _ _); [|discriminate]. injection E as <-. constructor; sm; trivial. apply (R_closed _ _ c); sm; trivial. right. now right.
Qed.

Lemma rinv_worker l (s s' : state e) y k w w' : inv f s -> rinv l s -> nth_error (workers s) k = Some w -> wexec y s w = Some (s', w') -> rinv l (set_worker s' k w').
Proof.
  intros I U Hw E. pose proof U as [R Er En Nk Mg H].
  destruct w as [| | |b x|b|]; cbn [wexec] in E; unfold pick in E.
  - destruct (stopF s); [|destruct (isWriteItemAvailable (cache s)) as [(b & x)|]]; injection E as <- <-; constructor; sm; trivial; (apply (rcode_ext l s); trivial); try (now apply calm_same).
    intros b'. unfold set_worker. sm. now rewrite mark_cached.
  - discriminate.
  - destruct (isWriteItemAvailable (cache s)) as [(b & x)|]; injection E as <- <-; constructor; sm; trivial; (apply (rcode_ext l s); trivial); try (now apply calm_same).
    intros b'. unfold set_worker. sm. now rewrite mark_cached.
  - destruct (picked_block l s b x I U (nth_error_In _ _ Hw)) as (v & Tv & Fv & Lb). rewrite Er, En, (rows_encodable b x v Tv Fv) in E.
    rewrite Mg in E. destruct (N.leb_spec (nblk s) b) as [Q|Q]; [exfalso; clear - Q Lb Nk; lia|]. injection E as <- <-. constructor; sm; trivial. apply (rcode_ext l s); trivial.
    intros b' Cb. unfold set_worker. sm. split; trivial. apply upd_map_other. intros ->. pose proof (i_picked _ _ I _ _ (nth_error_In _ _ Hw)) as Hin. apply cached_false with (v := (x, true)) in Cb. contradiction.
  - injection E as <- <-. unfold notify. constructor; sm; trivial. apply (rcode_ext l s); trivial. intros b' Cb. unfold set_worker. sm. now rewrite cached_erase, Cb, Bool.andb_false_r.
  - discriminate.
Qed.

Lemma rinv_step l (s s' : state e) : inv f s -> rinv l s -> step s s' -> code s <> [] \/ code s' = [] -> rinv l s'.
Proof.
  intros I U St Nc. inversion St as [? Si|a R0 C0 C1 A|j Hj|Hj|j H1 H2 H3]; subst.
  - inversion Si as [junk i c ? _ Hc Mw E J|j w y s1 w1 _ Hw Hy E]; subst; [eapply rinv_main; eauto|eapply rinv_worker; eauto].
  - destruct Nc as [Nc|Nc]; [congruence|]. destruct a; discriminate.
  - destruct U. constructor; sm; trivial. apply (rcode_ext l s); trivial. now apply calm_same.
  - destruct U. constructor; sm; trivial. apply (rcode_ext l s); trivial. now apply calm_same.
  - destruct U. constructor; sm; trivial; [lia|]. apply (rcode_ext l s); trivial. now apply calm_same.
Qed.

Notation rewriting := (rewriting f nb rp na ok okd).

Lemma rewriting_reach l (s : state e) : rewriting l s -> reach (opened e f nb rp na) s.
Proof.
  intros H. induction H as [|l s row d H IH R C0 C1 L O M Ld|l s row H IH R C0 C1 L O|l s H IH R C0 C1|l s s' H IH St Nc]; [constructor|..]; eapply reach_step; eauto; now constructor.
Qed.

Lemma rewriting_S0 : starts (opened e f nb rp na).
Proof. now constructor. Qed.

Lemma rewriting_idle l (s : state e) : rinv l s -> code s = [] -> closed s = false -> exists c, runs l c /\ given c = outs s /\ core (blocks c) s /\ opn c s.
Proof.
  intros [R Er En Nk Mg H] C0 C1.
  destruct H as [c Rn G H C K O|l0 c row El A Rn G H C K O|l0 c row d El A Rn G H B C K O|l0 a c c1 El A Rn Et G H C K O|l0 a c El A Rn G H Na Cb X C K O|l0 a c El A Rn G H Na Cb X C K|c Rn G H C X K O|c Rn G H C X K]; try congruence.
  - eauto 6.
  - destruct H as [H|[H|(H & _)]]; congruence.
  - destruct H as [H|H]; congruence.
Qed.

Theorem rinv_rewriting l (s : state e) : rewriting l s -> rinv l s.
Proof.
  intros H. induction H as [|l s row d H IH R C0 C1 L O M Ld|l s row H IH R C0 C1 L O|l s H IH R C0 C1|l s s' H IH St Nc].
  - constructor; trivial; [apply N.le_refl|]. eapply R_idle; [apply rn_open|trivial..]; [now left| |].
    + intros b. cbn. destruct (f b) as [y|] eqn:Ey; cbn; [|now split]. split; trivial. split; trivial. split; [eauto|]. apply Hf. congruence.
    + now repeat split.
  - destruct (rewriting_idle _ _ IH C0 C1) as (c & Rn & G & K & Op). destruct IH as [_ Er En Nk Mg _]. constructor; sm; trivial.
    apply (R_put _ _ l c row d); sm; trivial; [now repeat split|now left|]. destruct M as [M|M]; [left; now rewrite (runs_at f rp na l c Rn)|].
    right. destruct (blocks c (row / rp)) as [[y|v]|] eqn:Eb; [eauto|..].
    + destruct M. now apply (proj1 (runs_coded f rp na l c Rn) _ v).
    + exfalso. revert Eb. apply (runs_none f rp na l); auto.
  - destruct (rewriting_idle _ _ IH C0 C1) as (c & Rn & G & K & Op). destruct IH as [_ Er En Nk Mg _]. constructor; sm; trivial.
    apply (R_get _ _ l c row); sm; trivial; [now repeat split|now left].
  - destruct (rewriting_idle _ _ IH C0 C1) as (c & Rn & G & K & Op). destruct IH as [_ Er En Nk Mg _]. constructor; sm; trivial. apply (R_idle _ _ c); sm; trivial. now right.
  - apply (rinv_step l s); trivial. apply (inv_reach (opened e f nb rp na)); trivial; [exact rewriting_S0|now apply (rewriting_reach l)|apply IH].
Qed.

(** ** Results *)
Lemma rewrite_running l (s : state e) : rewriting l s -> status s = Running.
Proof. intros H. apply (rinv_rewriting l s H). Qed.

(** when no call is in progress, the rows read are those of a column without threads *)
Lemma rewrite_answers l (s : state e) : rewriting l s -> code s = [] -> exists c, runs l c /\ given c = outs s.
Proof.
  intros H C0. pose proof (rinv_rewriting l s H) as [R Er En Nk Mg U].
  destruct U as [c Rn G H' C K O|l0 c row El A Rn G H' C K O|l0 c row d El A Rn G H' B C K O|l0 a c c1 El A Rn Et G H' C K O|l0 a c El A Rn G H' Na Cb X C K O|l0 a c El A Rn G H' Na Cb X C K|c Rn G H' C X K O|c Rn G H' C X K];
    eauto; try congruence; repeat (destruct H' as [H'|H']); try destruct H' as (H' & _); congruence.
Qed.

(** what the file holds in the end *)
Lemma rewrite_closed l (s : state e) : rewriting l s -> closed s = true -> code s = [] ->
  exists c, runs l c /\ given c = outs s /\ forall b, agrees rp na b (put_away c b) (file s b) /\
    forall v, put_away c b = Some (Coded v) -> fine v.
Proof.
  intros H Cl C0. pose proof (rinv_rewriting l s H) as [R Er En Nk Mg U].
  destruct (on_disk _ s NT rewriting_S0 (rewriting_reach l s H) R Cl C0) as (_ & _ & D1 & D2). rewrite Er, En in D1.
  destruct U as [c Rn G H' C K O|l0 c row El A Rn G H' C K O|l0 c row d El A Rn G H' B C K O|l0 a c c1 El A Rn Et G H' C K O|l0 a c El A Rn G H' Na Cb X C K O|l0 a c El A Rn G H' Na Cb X C K|c Rn G H' C X K O|c Rn G H' C X K]; try congruence.
  exists c. split; trivial. split; trivial. intros b. specialize (K b). unfold agrees. destruct (put_away c b) as [[y|v]|].
  - split; [apply K|discriminate].
  - destruct K as (x & Lx & Tx & Fv & _). split; [|intros v' [= <-]; trivial]. destruct (D1 _ _ Lx) as (y & Y1 & Y2). exists y. split; trivial. now exists x.
  - split; [apply K|discriminate].
Qed.

(** the calls come to an end *)
Lemma rewrite_codes l (s : state e) i cc : rewriting l s -> code s = i :: cc -> forall k q, i <> ISetRpb k q.
Proof.
  intros H Hc k q ->. pose proof (rinv_rewriting l s H) as [R Er En Nk Mg U].
  destruct U as [c Rn G H' C K O|l0 c row El A Rn G H' C K O|l0 c row d El A Rn G H' B C K O|l0 a c c1 El A Rn Et G H' C K O|l0 a c El A Rn G H' Na Cb X C K O|l0 a c El A Rn G H' Na Cb X C K|c Rn G H' C X K O|c Rn G H' C X K];
    repeat (destruct H' as [H'|H']); try destruct H' as (H' & _); rewrite Hc in H'; try discriminate. destruct a; discriminate.
Qed.

Lemma rewrite_finishes l (s : state e) : inhabited (bytes e) ->
  (forall b x v, table_rows b x v -> fine v -> exists y, enc e rp na x y) ->
  rewriting l s -> finishes s.
Proof.
  intros Inh En H. apply (call_finishes_if (opened e f nb rp na) _ (rewriting l)); trivial.
  - exact rewriting_S0.
  - intros s1 s2 H1 Nc St. eapply rw_step; [exact H1|now constructor|now left].
  - intros s1 H1 R1 b' x Hin Ex. pose proof (rinv_rewriting l s1 H1) as U.
    destruct (picked_block l s1 b' x (inv_reach _ _ NT rewriting_S0 (rewriting_reach l s1 H1) R1) U Hin) as (v & Tv & Fv & _).
    rewrite (r_rpb _ _ U), (r_nant _ _ U). eauto.
  - now apply (rewriting_reach l).
  - pose proof (rinv_rewriting l s H) as U. destruct U as [R Er En' Nk Mg U]. left. split; trivial.
    destruct U as [c Rn G H' C K O|l0 c row El A Rn G H' C K O|l0 c row d El A Rn G H' B C K O|l0 a c c1 El A Rn Et G H' C K O|l0 a c El A Rn G H' Na Cb X C K O|l0 a c El A Rn G H' Na Cb X C K|c Rn G H' C X K O|c Rn G H' C X K];
      repeat (destruct H' as [H'|H']); try destruct H' as (H' & _); rewrite H'; try destruct a; cbn; intuition discriminate.
Qed.

(** ** What the specification says *)
Lemma runs_fine l c : runs l c -> (forall r d, In (CPut r d) l -> okd d) ->
  (forall b, match blocks c b with Some (Bytes y) => good y | Some (Coded v) => fine v | None => True end) /\ (at_block c <> None -> fine (rows c)).
Proof.
  intros H. induction H as [|l c a c' H IH D]; intros Ho.
  - cbn. split; [|easy]. intros b. destruct (f b) eqn:E; cbn; eauto.
  - destruct IH as (I1 & I2); [intros r d Hin; apply (Ho r d); now right|].
    assert (Pa : forall b, match put_away c b with Some (Bytes y) => good y | Some (Coded v) => fine v | None => True end).
    { intros b. specialize (I1 b). unfold put_away. destruct (at_block c) as [b0|]; trivial. destruct (dirty c); trivial. destruct (b =? b0); trivial. apply I2. discriminate. }
    assert (En : forall b c1, enters rp na c b c1 -> (forall b, match blocks c1 b with Some (Bytes y) => good y | Some (Coded v) => fine v | None => True end) /\ fine (rows c1)).
    { intros b c1 [Ea|y Na Ey|v y Na Ey (x & Tx & Cy)]; cbn.
      - split; trivial. apply I2. congruence.
      - split; trivial. apply Gd. specialize (Pa b). now rewrite Ey in Pa.
      - pose proof (Pa b) as Pb. rewrite Ey in Pb. assert (Gy : good y) by (eapply Ge; eauto). split; [|now apply Gd]. intros b'. destruct (b' =? b); trivial. apply Pa. }
    destruct D as [row d c1 E|row v c1 E _]; cbn; destruct (En _ _ E) as (Q1 & Q2); split; trivial; intros _; trivial.
    destruct Q2 as (Q2 & Q3). split; [now rewrite set_nth_length|]. destruct (Kd d) as (K1 & K2); [apply (Ho row d); now left|]. apply set_nth_Forall; trivial. split; trivial. rewrite firstn_length. lia.
Qed.

(** a row is put, and read later; other rows of its block are not put in between *)
Lemma put_then_read l0 mid r d c : runs (CGet r :: mid ++ CPut r d :: l0) c -> (forall r' d', In (CPut r' d') (mid ++ CPut r d :: l0) -> okd d') -> never_put rp mid (r / rp) ->
  exists out rest, given c = (r, AVals out) :: rest /\ (out = firstn (nSamp e) d \/
    exists v y, fine v /\ codes rp na (r / rp) v y /\ nth_error v (N.to_nat (r mod rp)) = Some (firstn (nSamp e) d) /\ nth_error (dec e rp na (r / rp) y) (N.to_nat (r mod rp)) = Some out).
Proof.
  intros H Ho Nv. set (b := r / rp) in *. set (k := N.to_nat (r mod rp)). set (w := firstn (nSamp e) d).
  pose (P := fun c : column e =>
    (at_block c = Some b /\ dirty c = true /\ nth_error (rows c) k = Some w) \/
    (at_block c <> Some b /\ exists v, blocks c b = Some (Coded v) /\ fine v /\ nth_error v k = Some w) \/
    (exists y v, blocks c b = Some (Bytes y) /\ fine v /\ codes rp na b v y /\ nth_error v k = Some w /\ (at_block c = Some b -> dirty c = false /\ rows c = dec e rp na b y))).
  inversion H as [|? c0 ? ? H0 D]; subst. inversion D as [|? out c1 En Hn]; subst. cbn [given]. exists out, (given c1). split; trivial.
  assert (Pc : P c0).
  { clear H D En Hn. revert c0 H0. induction mid as [|a mid IH]; intros c0 H0.
    - pose proof (runs_fine _ _ H0 Ho) as (_ & Fi). cbn [app] in H0. inversion H0 as [|? c2 ? ? H2 D]; subst. inversion D as [? ? c3 En|]; subst. left. cbn [at_block dirty rows] in Fi |- *. pose proof (enters_at rp na _ _ _ En) as Ea. split; trivial. split; trivial.
      apply set_nth_same. destruct Fi as (Fi & _); [congruence|]. rewrite set_nth_length in Fi. pose proof (N.mod_lt r rp Zr). unfold k. lia.
    - cbn [app] in H0, Ho. inversion H0 as [|? c2 ? ? H2 D]; subst. assert (Pc : P c2).
      { apply IH; trivial; [intros r' d' Hin; apply (Ho r' d'); now right|intros r' d' Hin; apply (Nv r' d'); now right]. }
      assert (Fc : at_block c2 <> None -> fine (rows c2)) by (apply (runs_fine _ _ H2); intros r' d' Hin; apply (Ho r' d'); now right).
      assert (Pe : forall b' c3, enters rp na c2 b' c3 -> P c3).
      { intros b' c3 En. destruct En as [Ea|y Na Ey|v y Na Ey Cy]; trivial.
        - destruct Pc as [(P1 & P2 & P3)|[(P1 & v & P2 & P3 & P4)|(y' & v & P1 & P2 & P3 & P4 & P5)]].
          + right. left. cbn [at_block blocks]. unfold put_away. rewrite P1, P2. split; [congruence|]. exists (rows c2). rewrite N.eqb_refl. split; trivial. split; trivial. apply Fc. congruence.
          + assert (Eb : put_away c2 b = Some (Coded v)).
            { unfold put_away. destruct (at_block c2) as [b0|]; trivial. destruct (dirty c2); trivial. destruct (N.eqb_spec b b0) as [->|_]; trivial. now destruct P1. }
            right. left. cbn [at_block blocks]. split; [intros [= ->]; congruence|]. eauto.
          + assert (Eb : put_away c2 b = Some (Bytes y')).
            { unfold put_away. destruct (at_block c2) as [b0|]; trivial. destruct (dirty c2) eqn:Ed; trivial. destruct (N.eqb_spec b b0) as [->|_]; trivial. destruct P5; congruence. }
            right. right. exists y', v. cbn [at_block blocks dirty rows]. split; trivial. split; trivial. split; trivial. split; trivial. intros [= ->]. split; trivial. congruence.
        - destruct Pc as [(P1 & P2 & P3)|[(P1 & v' & P2 & P3 & P4)|(y' & v' & P1 & P2 & P3 & P4 & P5)]].
          + right. left. cbn [at_block blocks]. assert (Nb' : b <> b') by congruence. split; [congruence|]. exists (rows c2). destruct (N.eqb_spec b b') as [|_]; [easy|]. unfold put_away. rewrite P1, P2, N.eqb_refl. split; trivial. split; trivial. apply Fc. congruence.
          + assert (Eb : put_away c2 b = Some (Coded v')).
            { unfold put_away. destruct (at_block c2) as [b0|]; trivial. destruct (dirty c2); trivial. destruct (N.eqb_spec b b0) as [->|_]; trivial. now destruct P1. }
            destruct (N.eq_dec b b') as [<-|Nb'].
            * right. right. exists y, v. cbn [at_block blocks dirty rows]. rewrite N.eqb_refl. assert (v = v') by congruence. subst v'. auto 10.
            * right. left. cbn [at_block blocks]. split; [congruence|]. destruct (N.eqb_spec b b') as [|_]; [easy|]. eauto.
          + assert (Eb : put_away c2 b = Some (Bytes y')).
            { unfold put_away. destruct (at_block c2) as [b0|]; trivial. destruct (dirty c2) eqn:Ed; trivial. destruct (N.eqb_spec b b0) as [->|_]; trivial. destruct P5; congruence. }
            assert (Nb' : b <> b') by congruence. right. right. exists y', v'. cbn [at_block blocks dirty rows]. destruct (N.eqb_spec b b') as [|_]; [easy|]. split; trivial. split; trivial. split; trivial. split; trivial. congruence. }
      inversion D as [r' d' c3 En|r' v' c3 En Hn]; subst.
      + pose proof (Pe _ _ En) as P3. pose proof (enters_at rp na _ _ _ En) as Ea. assert (Nb' : r' / rp <> b) by (apply (Nv r' d'); now left).
        destruct P3 as [(P1 & _)|[(P1 & P2)|(y & v & P1 & P2 & P3 & P4 & _)]]; [congruence|right; left; now split|].
        right. right. exists y, v. cbn [at_block blocks]. split; trivial. split; trivial. split; trivial. split; trivial. congruence.
      + pose proof (Pe _ _ En) as P3. exact P3. }
  fold b in En. fold k in Hn. destruct Pc as [(P1 & P2 & P3)|[(P1 & v & P2 & P3 & P4)|(y & v & P1 & P2 & P3 & P4 & P5)]].
  - left. destruct En as [Ea|y Na _|v y Na _ _]; [congruence|now destruct Na..].
  - right. assert (Eb : put_away c0 b = Some (Coded v)).
    { unfold put_away. destruct (at_block c0) as [b0|]; trivial. destruct (dirty c0); trivial. destruct (N.eqb_spec b b0) as [->|_]; trivial. now destruct P1. }
    destruct En as [Ea|y Na Ey|v' y Na Ey Cy]; [now destruct P1|congruence|]. assert (v' = v) by congruence. subst v'. exists v, y. auto.
  - right. exists v, y. split; trivial. split; trivial. split; trivial. assert (Eb : put_away c0 b = Some (Bytes y)).
    { unfold put_away. destruct (at_block c0) as [b0|]; trivial. destruct (dirty c0) eqn:Ed; trivial. destruct (N.eqb_spec b b0) as [->|_]; trivial. destruct P5; congruence. }
    destruct En as [Ea|y' Na Ey|v' y' Na Ey Cy]; cbn [rows] in Hn; [|congruence..]. destruct (P5 Ea) as (_ & Q). now rewrite <- Q.
Qed.

(** a row of a block in which nothing was put is read as it was *)
Lemma read_unchanged l r c : runs (CGet r :: l) c -> never_put rp l (r / rp) ->
  exists y out rest, f (r / rp) = Some y /\ nth_error (dec e rp na (r / rp) y) (N.to_nat (r mod rp)) = Some out /\ given c = (r, AVals out) :: rest.
Proof.
  intros H Nv. inversion H as [|? c0 ? ? H0 D]; subst. inversion D as [|? out c1 En Hn]; subst. cbn [given].
  assert (X : put_away c0 (r / rp) = option_map Bytes (f (r / rp)) /\ (at_block c0 = Some (r / rp) -> exists y, f (r / rp) = Some y /\ rows c0 = dec e rp na (r / rp) y)).
  { split; [now apply (runs_kept f rp na l)|]. clear H D En Hn. revert c0 H0. induction l as [|a l IH]; intros c0 H0; inversion H0 as [|? c2 ? ? H2 D]; subst; [discriminate|].
    assert (Nv' : never_put rp l (r / rp)) by (intros r' d' Hin; apply (Nv r' d'); now right). specialize (IH Nv' c2 H2). pose proof (runs_kept f rp na l c2 (r / rp) H2 Nv') as Pk.
    assert (Pe : forall b c3, enters rp na c2 b c3 -> at_block c3 = Some (r / rp) -> exists y, f (r / rp) = Some y /\ rows c3 = dec e rp na (r / rp) y).
    { intros b c3 [Ea|y Na Ey|v y Na Ey Cy]; trivial; cbn [at_block rows]; intros [= ->]; rewrite Pk in Ey; destruct (f (r / rp)) as [y'|]; try discriminate. injection Ey as <-. eauto. }
    destruct D as [r' d' c3 En|r' v' c3 En Hn]; cbn [at_block rows]; [|eauto]. intros Q. exfalso. apply (Nv r' d'); [now left|]. apply enters_at in En. congruence. }
  destruct X as (X1 & X2). destruct En as [Ea|y Na Ey|v y Na Ey Cy]; cbn [rows given] in *.
  - destruct (X2 Ea) as (y & Y1 & Y2). exists y, out, (given c0). split; trivial. split; trivial. now rewrite <- Y2.
  - rewrite X1 in Ey. destruct (f (r / rp)) as [y'|]; [|discriminate]. injection Ey as <-. exists y', out, (given c0). auto.
  - rewrite X1 in Ey. destruct (f (r / rp)); discriminate.
Qed.
End rewrite.
