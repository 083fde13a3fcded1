(** A table written in row order and closed: what its file holds, and that it can be
    opened again. *)
From Verif Require Import Base BaseLemmas Floats TimeBlockBuffer TbbSpec BytePacker File FileProofs StMan StManSpec HeaderProofs StManProofs.
From Verif Require Import StochasticEncoder TimeBlockEncoders Block Column ColumnSpec ColumnProofs ColumnInv ColumnReach ColumnTerm ColumnData ColumnOrder ColumnWhole ColumnAmong StoredColumn System SystemSpec SystemLow SystemCols SystemInv SystemOrder.
From Coq Require Import ZifyNat ZifyN.
Local Open Scope N_scope.

Local Arguments System.colenv : simpl never.

Lemma shape_total n na cs cs' : Forall2 same_shape cs cs' -> total n na cs' = total n na cs.
Proof. induction 1 as [|c c' cs cs' H Q IH]; cbn; trivial. destruct H as (H1 & H2 & H3 & H4). unfold total in *. rewrite IH. unfold StMan.CalculateBlockSize. now rewrite H1, H2, H3, H4. Qed.

Lemma init_storable m n na m1 : n < 2 ^ 32 -> na < 2 ^ 32 -> storable m -> initializeRowsPerBlock m n na true = Ok m1 -> total n na (columns m) < 2 ^ 32 -> storable m1.
Proof.
  intros Hn Ha St I Ft. unfold initializeRowsPerBlock in I. destruct (_ && _)%bool; [discriminate|]. unfold u32 in I. rewrite !N.mod_small in I by trivial.
  pose proof (place_ok n na (columns m) 0 ltac:(lia)) as P. destruct (place n na 0 (columns m)) as (cs & t). destruct P as (Et & El & Hin & _ & Hs & _). injection I as <-.
  destruct St. constructor; trivial.
  - change (52 + len (name m) + 24 * N.of_nat (length cs) < 2 ^ 32). now rewrite El.
  - change (t < 2 ^ 32). lia.
  - apply Forall_forall. intros c Hc. change (In c cs) in Hc. apply In_nth_error in Hc as (i & Hi). destruct (Hin i c Hi). split; [lia|].
    destruct (nth_error (columns m) i) as [c0|] eqn:E0.
    + destruct (Hs i c0 E0) as (c' & Hc' & _ & _ & _ & _ & _ & Ea). change (nth_error cs i = Some c) in Hi. assert (c' = c) by congruence. subst c'. now rewrite Ea.
    + apply nth_error_None in E0. assert (nth_error cs i = None) by (apply nth_error_None; lia). congruence.
Qed.

Lemma init_hdr m n na m1 : storable m -> initializeRowsPerBlock m n na true = Ok m1 -> hdrSize m1 = 52 + len (name m) + 24 * N.of_nat (length (columns m)).
Proof.
  intros St I. unfold initializeRowsPerBlock in I. destruct (_ && _)%bool; [discriminate|].
  pose proof (shape_length _ _ (place_shapes (u32 n) (u32 na) (columns m) 0)) as El. destruct (place _ _ 0 (columns m)) as (cs & t). injection I as <-. cbn [fst] in El.
  rewrite <- (headerSize_eq m St), <- El. reflexivity.
Qed.

Lemma init_options m n na m1 m3 : initializeRowsPerBlock m n na true = Ok m1 -> same_settings m1 m3 -> same_options m m3.
Proof.
  intros I (_ & _ & _ & _ & E1 & E2 & E3 & E4 & E5 & E6 & E7 & _). unfold initializeRowsPerBlock in I. destruct (_ && _)%bool; [discriminate|]. destruct (place _ _ 0 (columns m)) as (cs & t). injection I as <-.
  repeat split; assumption.
Qed.

Section SystemEnd.
Context (cfg : nat -> coldef) (T : table) (nt A : nat).
Hypotheses (NT : nt <> 0%nat) (HA : forall r, (fst (t_ants T r) < A)%nat /\ (snd (t_ants T r) < A)%nat) (A32 : N.of_nat A < 2 ^ 32).
Notation sys := (sys cfg T nt).
Notation cst := (cst cfg T nt). Notation man := (man cfg T nt). Notation active := (active cfg T nt).
Notation ncol := (ncol cfg T nt). Notation running := (running cfg T nt). Notation colenv := (colenv cfg T nt).
Context (m0 : stman) (D : forall i, N -> list (data (colenv i))) (K : N).
Hypotheses (HD : forall i r, (nSamp (colenv i) <= length (D i r))%nat) (New : new_table cfg m0).
Notation S0 := (snew cfg T nt m0).

Lemma New' : nBlocksInFile m0 = 0 /\ rowsPerBlock m0 = 0 /\ antennaCount m0 < 2 ^ 32 /\ described cfg m0.
Proof. destruct New. destruct nw_storable. auto. Qed.

Context (ks : nat -> N) (S : sys) (n : N) (na : nat).
Hypotheses (Or : sys_order cfg T nt m0 D K ks S) (R : running S) (Ft : fits32 (man S)) (Cl : all_closed S) (Ln : n < K) (Fn : first_block (colenv 0) n) (An : antenna_count (colenv 0) n na).

Let I : SO cfg T nt A m0 D K ks S := so_reach cfg T nt A NT HA A32 m0 D K HD New' ks S Or R Ft.
Let Is := o_si _ _ _ _ _ _ _ _ _ I.

Lemma end_rows i : (i < ncol S)%nat -> ks i = K.
Proof. intros Hi. apply (o_end _ _ _ _ _ _ _ _ _ I); trivial. exists i. split; trivial. right. now apply Cl. Qed.

Lemma end_block i b : (i < ncol S)%nat -> b * n < K -> rpb (cst S i) = n /\ nant (cst S i) = na /\
  exists y x, last (cst S i) b = Some x /\ file (cst S i) b = Some y /\ enc (colenv i) n na x y /\ exact_block (colenv i) (D i) K n b x.
Proof.
  intros Hi Hb. destruct (Cl i Hi) as (C1 & C2).
  pose proof (o_order _ _ _ _ _ _ _ _ _ I i Hi) as Ho. pose proof (end_rows i Hi) as Ek. rewrite Ek in Ho.
  destruct (order_last True (D i) (HD i) NT K n na (cst S i) Ho (R i Hi) C1 C2 Fn An (or_introl Ln)) as (E1 & E2 & Q).
  split; trivial. split; trivial. destruct (Q b Hb) as (y & x & Q1 & Q2 & Q3 & Q4). exists y, x. split; [assumption|]. split; [assumption|]. split; [assumption|].
  assert (Zn : n <> 0) by (destruct Fn; lia). apply exact_from; trivial.
  pose proof (o_among _ _ _ _ _ _ _ _ _ I i Hi) as W. unfold among in W. rewrite E1, Ek in W. destruct (W Zn) as (_ & W2). now apply (W2 b x Q1).
Qed.

Lemma end_columns : exists k, Datatypes.S k = ncol S.
Proof.
  pose proof (shape_length _ _ (s_shape _ _ _ _ _ _ Is)) as L. change (man S0) with m0 in L. unfold System.ncol. rewrite L.
  destruct New. destruct (columns m0) as [|c cs]; [easy|]. cbn. eauto.
Qed.

Lemma end_size : rowsPerBlock (man S) = n /\ antennaCount (man S) = N.of_nat na.
Proof.
  destruct end_columns as (k & Hk). assert (Hi : (0 < ncol S)%nat) by lia. assert (Zn : n <> 0) by (destruct Fn; lia).
  destruct (end_block 0 0 Hi ltac:(lia)) as (E1 & E2 & _). destruct (Cl 0%nat Hi) as (_ & C2).
  assert (Ag : agree cfg T nt S 0).
  { destruct (s_sync _ _ _ _ _ _ Is 0%nat Hi) as (S1 & S2). destruct (Nat.eq_dec 0 (active S)) as [H|H]; [auto|]. destruct (S2 H) as [(G & _)|(m & G & _)]; [trivial|congruence]. }
  destruct Ag as (A1 & A2). rewrite E1, E2 in *. split; [easy|]. symmetry. now apply A2.
Qed.

(** the manager's blocks are those of the rows *)
Lemma end_blocks b : b < nBlocksInFile (man S) <-> b * n < K.
Proof.
  destruct end_columns as (k & Hk). assert (Hi : (0 < ncol S)%nat) by lia. assert (Zn : n <> 0) by (destruct Fn; lia). destruct end_size as (E1 & E2).
  assert (Hlast : exists c, nth_error (columns (man S)) 0 = Some c) by (destruct (nth_error (columns (man S)) 0) eqn:E; [eauto|]; apply nth_error_None in E; unfold System.ncol in Hi; lia).
  destruct Hlast as (c0 & Hc0). split.
  - intros Hb. destruct (o_hist _ _ _ _ _ _ _ _ _ I) as [(Z & _)|(n' & na' & m1 & ws & H1 & H2 & H3 & H4 & H5 & H6 & H7 & H8)]; [congruence|].
    assert (Ln' : N.of_nat na' < 2 ^ 32) by (clear - H3 A32; lia).
    assert (Nb : nBlocksInFile m1 = 0). { destruct (init_manager _ _ _ _ H2 Ln' H4) as (_ & _ & -> & _). apply New. }
    destruct (blocks_written ws m1 Nb) as (B1 & B2).
    destruct ws as [|w ws]; [exfalso; rewrite H5 in Hb; cbn in Hb; lia|].
    destruct (B2 ltac:(discriminate)) as (b' & c' & d' & Hin & Eb). rewrite <- H5 in Eb.
    destruct (H8 _ _ _ Hin) as (i & Hc' & Hf).
    assert (Hi' : (i < ncol S)%nat) by (unfold System.ncol; rewrite H5; destruct (writes_settings (w :: ws) m1) as (_ & _ & ->); apply nth_error_Some; congruence).
    assert (Hl : last (cst S i) b' <> None).
    { intros Hl. pose proof (so_inv cfg T nt A NT m0 D K New' ks S i I R Hi') as Iv. rewrite (i_file _ _ Iv b' Hl) in Hf. easy. }
    destruct (end_block i 0 Hi' ltac:(lia)) as (R1 & R2 & _).
    pose proof (so_ord cfg T nt A NT m0 D K HD ks S i I R Hi') as Od. rewrite (end_rows i Hi') in Od.
    destruct Od as [(mm & Z & _)|[(n1 & na1 & mm & _ & _ & _ & Z & _ & _ & Lm & _ & Hm & _)|(_ & n1 & na1 & _ & _ & _ & Z & _)]]; [congruence| |congruence].
    rewrite R1 in Z. subst n1. specialize (Hm b' Hl). nia.
  - intros Hb. destruct (end_block 0 b Hi Hb) as (_ & _ & y & x & _ & Hf & _). now apply (s_file _ _ _ _ _ _ Is 0%nat c0 b y).
Qed.

(** the table can be opened, and every block holds exactly its rows *)
Lemma end_reopen mo nr : reopens (man S) mo -> exists m2 m3, openMan nr mo = Ok m2 /\ prepareMan m2 = Ok m3 /\
  rowsPerBlock m3 = n /\ antennaCount m3 = N.of_nat na /\ columns m3 = columns (man S) /\ nBlocksInFile m3 = nBlocksInFile (man S) /\
  same_options m0 m3 /\ sstart cfg T nt (sopen cfg T nt m3) /\ fits32 m3 /\
  forall i col b, nth_error (columns m3) i = Some col -> b * n < K -> exists y x, file (cst S i) b = Some y /\ disk m3 col b = Some y /\ enc (colenv i) n na x y /\ exact_block (colenv i) (D i) K n b x.
Proof.
  intros (Ro1 & Ro2). destruct end_columns as (k & Hk). assert (Hi : (0 < ncol S)%nat) by lia. assert (Zn : 0 < n) by apply Fn. destruct end_size as (E1 & E2).
  destruct (o_hist _ _ _ _ _ _ _ _ _ I) as [(Z & _)|(n' & na' & m1 & ws & H1 & H2 & H3 & H4 & H5 & H6 & H7 & H8)]; [exfalso; lia|].
  destruct (H1 0%nat) as (F1 & F2). assert (n' = n) by exact (first_block_unique _ _ _ F1 Fn). subst n'. assert (na' = na) by exact (antenna_count_unique _ _ _ _ F2 An). subst na'. clear F1 F2.
  assert (La : N.of_nat na < 2 ^ 32) by (clear - H3 A32; lia).
  destruct (init_manager _ _ _ _ H2 La H4) as (M1 & M2 & M3 & M4 & M5). destruct (writes_settings ws m1) as (W1 & W2 & W3).
  assert (Tot : total n (N.of_nat na) (columns m0) < 2 ^ 32).
  { rewrite <- (shape_total _ _ _ _ M4), <- W3, <- H5. rewrite <- E1, <- E2. apply Ft. lia. }
  assert (St1 : storable m1) by exact (init_storable _ _ _ _ H2 La (nw_storable _ _ New) H4 Tot).
  assert (Lk : nth_error (columns m1) k <> None) by (apply nth_error_Some; unfold System.ncol in Hk; rewrite H5, W3 in Hk; lia).
  destruct (nth_error (columns m1) k) as [w|] eqn:Hw; [clear Lk|easy].
  assert (Hk' : Datatypes.S k = length (columns m1)) by (unfold System.ncol in Hk; rewrite H5, W3 in Hk; exact Hk).
  assert (Pos : 0 < co_blockSize w).
  { rewrite (placed_size m1 M5 ltac:(lia) k w Hw), M1, M2. destruct (shape_nth _ _ M4 k w Hw) as (c & Hc & Sh). destruct (nw_described _ _ New k c Hc) as (D1 & D2 & D3).
    apply (size_pos (cfg k)); trivial; [eapply shape_describes; eauto|lia]. }
  assert (Kn : (k < ncol S)%nat) by lia.
  assert (Bl : exists b, nBlocksInFile (man S) = b + 1 /\ b * n < K).
  { assert (X : 0 < nBlocksInFile (man S)) by (apply end_blocks; lia). exists (nBlocksInFile (man S) - 1). split; [lia|]. apply end_blocks. lia. }
  destruct Bl as (bl & Bl1 & Bl2). destruct (end_block k bl Kn Bl2) as (_ & _ & yl & xl & _ & Fl & _). destruct (H7 k w bl yl Hw Fl) as (dl & Hdl).
  assert (Nws : ws <> []) by (intros ->; destruct Hdl).
  assert (Ff : fsize (fil m0) <= hdrSize m1) by (rewrite (init_hdr _ _ _ _ (nw_storable _ _ New) H4); exact (nw_file _ _ New)).
  assert (Sh : Forall2 (fun c c' => co_kind c' = co_kind c /\ co_nPol c' = co_nPol c /\ co_nChan c' = co_nChan c) (columns m0) (columns mo)).
  { rewrite H5, W3 in Ro2. clear - M4 Ro2. revert Ro2. generalize (columns mo). induction M4 as [|c c' cs cs' (Q1 & Q2 & Q3 & Q4) _ IH]; intros l H; inversion H as [|? ? ? ? (G1 & G2 & G3) Q]; subst; constructor; auto. rewrite G1, G2, G3. auto. }
  rewrite H5 in Ro1.
  destruct (reopen_geometry m0 n (N.of_nat na) w k m1 ws mo nr H4 St1 (conj Zn H2) La Tot (nw_blocks _ _ New) Ff Hk' Hw Pos H6 Nws (nw_dbits _ _ New) (nw_wbits _ _ New) (nw_set _ _ New) Sh Ro1)
    as (m2 & m3 & O & P & SS & Cs & Fi & Nb & Rd).
  assert (Lo : length (columns mo) = length (columns m1)).
  { rewrite H5, W3 in Ro2. clear - Ro2. induction Ro2; cbn; congruence. }
  destruct (reopen_blocks m0 n (N.of_nat na) w k m1 ws mo nr H4 St1 H2 La Tot (nw_blocks _ _ New) Ff Hk' Hw Pos H6 Nws Lo Ro1) as (m2' & O' & _ & _ & B1 & _).
  assert (m2' = m2) by congruence. subst m2'.
  assert (Nb3 : nBlocksInFile m3 = nBlocksInFile (man S)).
  { rewrite Nb, B1, H5; trivial. exists dl. rewrite <- H5, Bl1. replace (bl + 1 - 1) with bl by lia. exact Hdl. }
  assert (SS' : same_options m0 m3) by (eapply init_options; eauto).
  destruct SS as (S1 & S2 & S3 & S4 & _).
  assert (Hs : hdrSize (man S) = hdrSize m1 /\ blockSize (man S) = blockSize m1) by (rewrite H5; destruct (StManProofs.writes_settings ws m1) as (_ & X1 & X2 & _); now split).
  destruct Hs as (Hs1 & Hs2).
  exists m2, m3. split; [exact O|]. split; [exact P|]. split; [congruence|]. split; [congruence|]. assert (Cs3 : columns m3 = columns (man S)) by (rewrite H5, W3; exact Cs). split; [exact Cs3|]. split; [exact Nb3|]. split; [exact SS'|].
  split; [|split].
  - constructor.
    + lia.
    + intros Z. pose proof (s_placed _ _ _ _ _ _ Is ltac:(lia)) as (P1 & P2 & P3). rewrite Cs3. replace (rowsPerBlock m3) with (rowsPerBlock (man S)) by congruence. replace (antennaCount m3) with (antennaCount (man S)) by congruence.
      replace (blockSize m3) with (blockSize (man S)) by congruence. auto.
    + rewrite Nb3. apply (s_small _ _ _ _ _ _ Is).
    + intros b Hb. rewrite Nb3 in Hb. pose proof (s_begun _ _ _ _ _ _ Is b Hb) as X. rewrite Fi, Ro1, <- H5, S3, S4, <- Hs1, <- Hs2. exact X.
    + intros i col Hc. rewrite Cs3 in Hc. exact (si_described cfg T nt A S0 S i col Is (nw_described _ _ New) Hc).
  - intros _. rewrite Cs3. replace (rowsPerBlock m3) with (rowsPerBlock (man S)) by congruence. replace (antennaCount m3) with (antennaCount (man S)) by congruence. apply Ft. lia.
  - intros i col b Hc Hb. rewrite Cs3 in Hc. assert (Hi' : (i < ncol S)%nat) by (apply nth_error_Some; congruence).
    destruct (end_block i b Hi' Hb) as (_ & _ & y & x & _ & Fy & Ey & Xy). exists y, x. split; [exact Fy|]. split; [|now split].
    destruct (s_file _ _ _ _ _ _ Is i col b y Hc Fy) as (L1 & L2 & L3). unfold disk. rewrite Nb3, (proj2 (N.ltb_lt _ _) L1).
    rewrite H5 in L3. now rewrite (Rd _ _ _ _ L3).
Qed.
End SystemEnd.
