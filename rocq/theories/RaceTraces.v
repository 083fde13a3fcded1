(** Runs for the examples and counterexamples about data races. *)
From Verif Require Import Base BaseLemmas Floats TimeBlockBuffer BytePacker File StMan StManSpec.
From Verif Require Import BitStream StochasticEncoder TimeBlockEncoders Block Column ColumnSpec StoredColumn StoredTraces System SystemSpec SystemTraces Accesses RaceSpec Races.
Local Open Scope N_scope.

(** put a row; shut a column down; a step of the calling thread in a column, of an encoding thread *)
Inductive ract := APut (i : nat) (row : N) | AShut (i : nat) | AMain (i : nat) | AWork (i k : nat).

Definition ystep (S : sys ycfg exT 2) (a : ract) : option (sys ycfg exT 2) :=
  match a with
  | APut i row => ycall ycfg exT 2 S i (Put (e := colenv ycfg exT 2 i) row (yD i row)) (row <? 2 ^ 32) false
  | AShut i => ycall ycfg exT 2 S i Shutdown true true
  | AMain i => ymain ycfg exT 2 S i
  | AWork i k => ywork ycfg exT 2 yg yv S i k
  end.
Fixpoint yruns (l : list ract) (S : sys ycfg exT 2) : option (sys ycfg exT 2) :=
  match l with [] => Some S | a :: l => match ystep S a with Some S' => yruns l S' | None => None end end.

Lemma ystep_step S a S' : ystep S a = Some S' -> sstep ycfg exT 2 S S'.
Proof.
  destruct a as [i row|i|i|i k]; cbn [ystep]; intros E.
  - apply (ycall_call ycfg exT 2 yg yv yD 6) in E; [|intros Q; now apply N.ltb_lt|discriminate]. eapply ss_call. apply E.
  - apply (ycall_call ycfg exT 2 yg yv yD 6) in E; [|intros _; exact Logic.I|reflexivity]. eapply ss_call. apply E.
  - apply ss_move. now apply (ymain_move ycfg exT 2 yg yv yD 6) in E.
  - apply ss_move. now apply (ywork_move ycfg exT 2 yg yv yD 6) in E.
Qed.

Lemma yruns_reach l : forall S0 S S', sreach ycfg exT 2 S0 S -> yruns l S = Some S' -> sreach ycfg exT 2 S0 S'.
Proof.
  induction l as [|a l IH]; intros S0 S S' H; cbn [yruns]; [now intros [= <-]|].
  destruct (ystep S a) as [S1|] eqn:E; [|discriminate]. apply IH. eapply sreach_step; eauto. now apply ystep_step with a.
Qed.

Definition ynew : sys ycfg exT 2 := snew ycfg exT 2 yman.
Definition yrun (l : list ract) : sys ycfg exT 2 := match yruns l ynew with Some S1 => S1 | None => ynew end.
Lemma yrun_reach l : sreach ycfg exT 2 ynew (yrun l).
Proof. unfold yrun. destruct (yruns l ynew) as [S1|] eqn:E; [|constructor]. eapply yruns_reach; eauto. constructor. Qed.
Definition yworks (l : list ract) : bool := match yruns l ynew with Some _ => true | None => false end.


Definition put0 (r : N) : list ract := [APut 0 r; AMain 0].
(** rows 0 to 4 of column 0; at row 4 the block size is found *)
Definition upto4 := put0 0 ++ put0 1 ++ put0 2 ++ put0 3 ++ [APut 0 4; AMain 0; AMain 0].
(** column 1 is about to start its threads; it did; one of them waits *)
Definition starting1 := upto4 ++ [AMain 1; AMain 1].
Definition started1 := starting1 ++ [AMain 1].
Definition waits1 := started1 ++ [AWork 1 0].
(** the block is handed over and an encoding thread takes it; the calling thread is going to look for the next block *)
Definition picked0 := started1 ++ [AMain 0; AMain 0; AMain 0; AMain 0; AWork 0 0].
(** the put is finished while the block is encoded; then column 1 is removed *)
Definition idle0 := picked0 ++ [AMain 0; AMain 0].
Definition removed1 := idle0 ++ [AShut 1; AMain 1; AMain 1; AWork 1 0; AWork 1 1; AMain 1].
(** row 5, and then row 0 twice *)
Definition zero0 := put0 5 ++ [APut 0 0; AMain 0; AMain 0; AMain 1; AMain 1; AMain 1; AMain 0; AMain 0; AMain 0; APut 0 0; AMain 0].


Notation ycst := (cst ycfg exT 2). Notation yncol := (ncol ycfg exT 2).

Definition kind_of_instr {A} (x : instr A) : nat :=
  match x with IPutRow _ _ => 1 | ILoad _ => 2 | ISetRpb _ _ => 3 | IStart => 4 | _ => 0 end.
Definition kind_of_place {A} (w : wpc A) : nat := match w with WTop => 1 | WWait => 2 | WPicked _ _ => 3 | _ => 0 end.
Definition at_code (S : sys ycfg exT 2) (i : nat) : nat := match code (ycst S i) with x :: _ => kind_of_instr x | [] => 9 end.
Definition at_place (S : sys ycfg exT 2) (i k : nat) : nat := match nth_error (workers (ycst S i)) k with Some w => kind_of_place w | None => 9 end.

Lemma place_picked S i k : at_place S i k = 3%nat -> exists b x, nth_error (workers (ycst S i)) k = Some (WPicked b x).
Proof. unfold at_place. destruct (nth_error _ _) as [[| | |b x|b|]|]; cbn; intros E; try discriminate. eauto. Qed.
Lemma place_top S i k : at_place S i k = 1%nat -> nth_error (workers (ycst S i)) k = Some WTop.
Proof. unfold at_place. destruct (nth_error _ _) as [[| | |b x|b|]|]; cbn; intros E; try discriminate. reflexivity. Qed.
Lemma place_wait S i k : at_place S i k = 2%nat -> nth_error (workers (ycst S i)) k = Some WWait.
Proof. unfold at_place. destruct (nth_error _ _) as [[| | |b x|b|]|]; cbn; intros E; try discriminate. reflexivity. Qed.
Lemma code_load S i : at_code S i = 2%nat -> exists b c, code (ycst S i) = ILoad b :: c.
Proof. unfold at_code. destruct (code _) as [|x c]; [discriminate|]. destruct x; cbn; intros E; try discriminate. eauto. Qed.
Lemma code_set S i : at_code S i = 3%nat -> exists n m c, code (ycst S i) = ISetRpb n m :: c.
Proof. unfold at_code. destruct (code _) as [|x c]; [discriminate|]. destruct x; cbn; intros E; try discriminate. eauto. Qed.
Lemma code_idle S i : at_code S i = 9%nat -> code (ycst S i) = [].
Proof. unfold at_code. destruct (code _) as [|x c]; [trivial|]. destruct x; discriminate. Qed.

Lemma code_start S i : (at_code S i + 10 * length (code (ycst S i)))%nat = 14%nat -> code (ycst S i) = [IStart].
Proof. unfold at_code. destruct (code _) as [|x [|y c]]; [discriminate| |]; destruct x; cbn; intros E; try discriminate; try reflexivity; lia. Qed.

(** a run that is as said, in a running table *)
Definition goodb (l : list ract) : bool :=
  yworks l && runningb ycfg exT 2 (yrun l) && (yncol (yrun l) =? 2)%nat &&
  (total (rowsPerBlock (man ycfg exT 2 (yrun l))) (antennaCount (man ycfg exT 2 (yrun l))) (columns (man ycfg exT 2 (yrun l))) <? 2 ^ 32).
Lemma good_ok l : goodb l = true -> sreach ycfg exT 2 ynew (yrun l) /\ running ycfg exT 2 (yrun l) /\ fits32 (man ycfg exT 2 (yrun l)) /\ yncol (yrun l) = 2%nat.
Proof.
  unfold goodb. intros H. apply andb_true_iff in H as (H & H4). apply andb_true_iff in H as (H & H3). apply andb_true_iff in H as (_ & H2).
  split; [apply yrun_reach|]. split; [now apply (runningb_ok ycfg exT 2 yg yv yD 6)|]. split; [intros _; now apply N.ltb_lt|now apply Nat.eqb_eq].
Qed.
Definition noemptyb (l : list ract) : bool :=
  forallb (fun i => isnil (faults (ycst (yrun l) i))) [0%nat; 1%nat].
Lemma noempty_ok l : goodb l = true -> noemptyb l = true -> no_empty_block (yrun l).
Proof.
  intros G H i Hi. apply good_ok in G as (_ & _ & _ & G). rewrite G in Hi. unfold noemptyb in H. rewrite forallb_forall in H.
  rewrite (isnil_eq _ (H i ltac:(destruct i as [|[|i]]; [now left|right; now left|lia]))). intros [].
Qed.

Lemma picked0_good : goodb picked0 = true. Proof. vm_compute. reflexivity. Qed.
Lemma idle0_good : goodb idle0 = true. Proof. vm_compute. reflexivity. Qed.
Lemma removed1_good : goodb removed1 = true. Proof. vm_compute. reflexivity. Qed.
Lemma zero0_good : goodb zero0 = true. Proof. vm_compute. reflexivity. Qed.
Lemma starting1_good : goodb starting1 = true. Proof. vm_compute. reflexivity. Qed.
Lemma waits1_good : goodb waits1 = true. Proof. vm_compute. reflexivity. Qed.
Lemma faultless : noemptyb picked0 = true /\ noemptyb idle0 = true /\ noemptyb removed1 = true.
Proof. repeat split; vm_compute; reflexivity. Qed.

(** the calling thread and an encoding thread are going to use the file, with the mutex *)
Lemma busy_file : let S := yrun picked0 in
  pending S Caller (Wm MMan LStream) /\ pending S (Encoder 0 0) (Wm MMan LStream).
Proof.
  intros S. destruct (good_ok _ picked0_good) as (_ & _ & _ & Nc). split.
  - destruct (code_load S 0) as (b & c & E); [vm_compute; reflexivity|]. apply (pe_caller S 0 (ILoad b) c); [unfold S; rewrite Nc; lia|exact E|cbn; auto 6].
  - destruct (place_picked S 0 0) as (b & x & E); [vm_compute; reflexivity|]. apply (pe_encoder S 0 0 (WPicked b x)); [unfold S; rewrite Nc; lia|exact E|cbn; auto 8].
Qed.

Lemma idle_race : let S := yrun idle0 in (forall j, (j < yncol S)%nat -> code (ycst S j) = [] /\ closed (ycst S j) = false) /\ nBlocksInFile (man ycfg exT 2 S) = 0 /\
  pending S (Encoder 0 0) (Wm MMan LBlocks).
Proof.
  intros S. destruct (good_ok _ idle0_good) as (_ & _ & _ & Nc). split; [|split].
  - fold S in Nc. rewrite Nc. intros [|[|j]] Hj; [| |lia]; (split; [apply code_idle|]; vm_compute; reflexivity).
  - vm_compute. reflexivity.
  - destruct (place_picked S 0 0) as (b & x & E); [vm_compute; reflexivity|]. apply (pe_encoder S 0 0 (WPicked b x)); [unfold S; rewrite Nc; lia|exact E|cbn; auto 8].
Qed.

Lemma removed_race : let S := yrun removed1 in (forall j, (j < yncol S)%nat -> code (ycst S j) = []) /\ closed (ycst S 1) = true /\ closed (ycst S 0) = false /\
  pending S (Encoder 0 0) (Wm MMan LStream).
Proof.
  intros S. destruct (good_ok _ removed1_good) as (_ & _ & _ & Nc). split; [|split; [|split]].
  - fold S in Nc. rewrite Nc. intros [|[|j]] Hj; [| |lia]; apply code_idle; vm_compute; reflexivity.
  - vm_compute. reflexivity.
  - vm_compute. reflexivity.
  - destruct (place_picked S 0 0) as (b & x & E); [vm_compute; reflexivity|]. apply (pe_encoder S 0 0 (WPicked b x)); [unfold S; rewrite Nc; lia|exact E|cbn; auto 8].
Qed.

Lemma zero_race : data_race (yrun zero0).
Proof.
  pose (S := yrun zero0). destruct (good_ok _ zero0_good) as (_ & _ & _ & Nc). fold S in Nc |- *.
  exists Caller, (Encoder 0 0), (W LRows), (R LRows). split; [discriminate|]. split; [|split].
  - destruct (code_set S 0) as (n & m & c & E); [vm_compute; reflexivity|].
    assert (A : (0 =? active ycfg exT 2 S)%nat = true) by (vm_compute; reflexivity).
    apply (pe_caller S 0 (ISetRpb n m) c); [rewrite Nc; lia|exact E|rewrite A; now left].
  - apply (pe_encoder S 0 0 WTop); [rewrite Nc; lia|apply place_top; vm_compute; reflexivity|cbn; auto].
  - split; [reflexivity|]. split; [now left|]. intros m [].
Qed.

Lemma ywork_code S i k S' : ywork ycfg exT 2 yg yv S i k = Some S' -> forall j, code (ycst S' j) = code (ycst S j).
Proof.
  unfold ywork. destruct (nth_error (columns (man ycfg exT 2 S)) i) as [col|]; [|discriminate]. destruct (nth_error (workers (ycst S i)) k) as [w|]; [|discriminate].
  destruct (negb _); [discriminate|]. destruct (match w with WPicked _ _ => _ | _ => _ end) as [(y & m1)|]; [|discriminate].
  destruct (wexec (e := colenv ycfg exT 2 i) y (ycst S i) w) as [(s1 & w1)|] eqn:E; [|discriminate]. intros [= <-] j. cbn [System.cst]. apply wexec_code in E.
  destruct (Nat.eq_dec j i) as [->|N]; [rewrite (upd_same ycfg exT 2)|rewrite (upd_other ycfg exT 2) by trivial]; [exact E|reflexivity].
Qed.

Lemma yrun_snoc l a : yworks (l ++ [a]) = true -> ystep (yrun l) a = Some (yrun (l ++ [a])).
Proof.
  unfold yworks, yrun. assert (X : forall T0, yruns (l ++ [a]) T0 = match yruns l T0 with Some T1 => ystep T1 a | None => None end).
  { induction l as [|b l IH]; intros T0; cbn [yruns app]; [destruct (ystep T0 a); reflexivity|]. destruct (ystep T0 b); [apply IH|reflexivity]. }
  rewrite X. destruct (yruns l ynew) as [T1|]; [|discriminate]. destruct (ystep T1 a); intros Q; [reflexivity|discriminate Q].
Qed.

(** column 1 starts its threads; a thread goes on *)
Definition starts1 (S S' S'' : sys ycfg exT 2) : Prop :=
  smove ycfg exT 2 S S' /\ (exists c, code (ycst S 1) = IStart :: c /\ code (ycst S' 1) = c) /\ encoders_go S' S'' /\
  pending S' (Encoder 1 1) (R LRows) /\ pending S'' (Encoder 1 0) (Wm (MCol 1) (LCache 1)).
Lemma starts1_of S S' S'' : ystep S (AMain 1) = Some S' -> ystep S' (AWork 1 0) = Some S'' -> yncol S' = 2%nat -> yncol S'' = 2%nat ->
  (at_code S 1 + 10 * length (code (ycst S 1)))%nat = 14%nat -> at_code S' 1 = 9%nat -> at_place S' 1 1 = 1%nat -> at_place S'' 1 0 = 2%nat -> starts1 S S' S''.
Proof.
  intros O2 O3 N1 N2 C1 C2 P1 P2.
  split; [exact (ymain_move ycfg exT 2 yg yv yD 6 S 1 S' O2)|]. split; [|split; [|split]].
  - exists []. split; [now apply code_start|now apply code_idle].
  - apply (eg_step S' S' S''); [constructor|left; exact (ywork_move ycfg exT 2 yg yv yD 6 S' 1 0 S'' O3)|].
    exact (ywork_code S' 1 0 S'' O3).
  - apply (pe_encoder S' 1 1 WTop); [rewrite N1; lia|now apply place_top|cbn; auto].
  - apply (pe_encoder S'' 1 0 WWait); [rewrite N2; lia|now apply place_wait|cbn; auto].
Qed.
Lemma snoc_started : ystep (yrun starting1) (AMain 1) = Some (yrun started1).
Proof. exact (yrun_snoc starting1 (AMain 1) ltac:(vm_compute; reflexivity)). Qed.
Lemma snoc_waits : ystep (yrun started1) (AWork 1 0) = Some (yrun waits1).
Proof. exact (yrun_snoc started1 (AWork 1 0) ltac:(vm_compute; reflexivity)). Qed.
Lemma start_cols : yncol (yrun started1) = 2%nat /\ yncol (yrun waits1) = 2%nat. Proof. split; vm_compute; reflexivity. Qed.
Lemma start_codes : (at_code (yrun starting1) 1 + 10 * length (code (ycst (yrun starting1) 1)))%nat = 14%nat /\ at_code (yrun started1) 1 = 9%nat.
Proof. split; vm_compute; reflexivity. Qed.
Lemma start_places : at_place (yrun started1) 1 1 = 1%nat /\ at_place (yrun waits1) 1 0 = 2%nat. Proof. split; vm_compute; reflexivity. Qed.
Lemma start_steps : starts1 (yrun starting1) (yrun started1) (yrun waits1).
Proof. exact (starts1_of _ _ _ snoc_started snoc_waits (proj1 start_cols) (proj2 start_cols) (proj1 start_codes) (proj2 start_codes) (proj1 start_places) (proj2 start_places)). Qed.

Lemma picked_example : sstart ycfg exT 2 ynew /\ sreach ycfg exT 2 ynew (yrun picked0) /\ running ycfg exT 2 (yrun picked0) /\ fits32 (man ycfg exT 2 (yrun picked0)) /\
  no_empty_block (yrun picked0) /\ pending (yrun picked0) Caller (Wm MMan LStream) /\ pending (yrun picked0) (Encoder 0 0) (Wm MMan LStream).
Proof.
  destruct (good_ok _ picked0_good) as (H1 & H2 & H3 & _).
  exact (conj ystart (conj H1 (conj H2 (conj H3 (conj (noempty_ok _ picked0_good (proj1 faultless)) busy_file))))).
Qed.

Lemma header_example : sreach ycfg exT 2 ynew (yrun starting1) /\ (1 < yncol (yrun starting1))%nat /\ running ycfg exT 2 (yrun waits1) /\ fits32 (man ycfg exT 2 (yrun waits1)) /\
  starts1 (yrun starting1) (yrun started1) (yrun waits1).
Proof.
  destruct (good_ok _ starting1_good) as (H1 & _ & _ & H2). destruct (good_ok _ waits1_good) as (_ & H3 & H4 & _).
  refine (conj H1 (conj _ (conj H3 (conj H4 start_steps)))). rewrite H2. lia.
Qed.

Lemma joined_places : length (workers (ycst (yrun idle0) 1)) = 2%nat. Proof. vm_compute. reflexivity. Qed.
Lemma joined_example : sreach ycfg exT 2 ynew (yrun removed1) /\ running ycfg exT 2 (yrun removed1) /\ closed (ycst (yrun removed1) 1) = true /\
  code (ycst (yrun removed1) 1) = [] /\ length (workers (ycst (yrun idle0) 1)) = 2%nat.
Proof.
  destruct (good_ok _ removed1_good) as (H1 & H2 & _ & H3). destruct removed_race as (R1 & R2 & _).
  refine (conj H1 (conj H2 (conj R2 (conj (R1 1%nat _) joined_places)))). rewrite H3. lia.
Qed.

Lemma remove_refuted : exists cfg T nt (S0 S : sys cfg T nt) i, nt <> 0%nat /\ ants32 T /\ sstart cfg T nt S0 /\ sreach cfg T nt S0 S /\
  running cfg T nt S /\ fits32 (man cfg T nt S) /\ no_empty_block S /\
  (forall j, (j < ncol cfg T nt S)%nat -> code (cst cfg T nt S j) = []) /\ closed (cst cfg T nt S i) = true /\
  exists j k a b, j <> i /\ In a (remove_acc (ncol cfg T nt S)) /\ pending S (Encoder j k) b /\ conflict a b.
Proof.
  destruct (good_ok _ removed1_good) as (H1 & H2 & H3 & _). destruct removed_race as (R1 & R2 & _ & R3).
  exists ycfg, exT, 2%nat, ynew, (yrun removed1), 1%nat.
  refine (conj (Nat.neq_succ_0 1) (conj yants (conj ystart (conj H1 (conj H2 (conj H3 (conj (noempty_ok _ removed1_good (proj2 (proj2 faultless))) (conj R1 (conj R2 _))))))))).
  exists 0%nat, 0%nat, (W LStream), (Wm MMan LStream). refine (conj (Nat.neq_0_succ 0) (conj _ (conj R3 _))).
  - right. right. now left.
  - split; [reflexivity|]. split; [now left|]. intros m [].
Qed.

Lemma add_refuted : exists cfg T nt (S0 S : sys cfg T nt), nt <> 0%nat /\ ants32 T /\ sstart cfg T nt S0 /\ sreach cfg T nt S0 S /\
  running cfg T nt S /\ fits32 (man cfg T nt S) /\ no_empty_block S /\
  (forall j, (j < ncol cfg T nt S)%nat -> code (cst cfg T nt S j) = [] /\ closed (cst cfg T nt S j) = false) /\ nBlocksInFile (man cfg T nt S) = 0 /\
  exists j k a b, In a add_acc /\ pending S (Encoder j k) b /\ conflict a b.
Proof.
  destruct (good_ok _ idle0_good) as (H1 & H2 & H3 & _). destruct idle_race as (R1 & R2 & R3).
  exists ycfg, exT, 2%nat, ynew, (yrun idle0).
  refine (conj (Nat.neq_succ_0 1) (conj yants (conj ystart (conj H1 (conj H2 (conj H3 (conj (noempty_ok _ idle0_good (proj1 (proj2 faultless))) (conj R1 (conj R2 _))))))))).
  exists 0%nat, 0%nat, (R LBlocks), (Wm MMan LBlocks). refine (conj (or_introl eq_refl) (conj R3 _)).
  split; [reflexivity|]. split; [now right|]. intros m [].
Qed.

Lemma row0_refuted : exists cfg T nt (S0 S : sys cfg T nt), nt <> 0%nat /\ ants32 T /\ sstart cfg T nt S0 /\ sreach cfg T nt S0 S /\
  running cfg T nt S /\ fits32 (man cfg T nt S) /\ data_race S.
Proof.
  destruct (good_ok _ zero0_good) as (H1 & H2 & H3 & _). exists ycfg, exT, 2%nat, ynew, (yrun zero0).
  exact (conj (Nat.neq_succ_0 1) (conj yants (conj ystart (conj H1 (conj H2 (conj H3 zero_race)))))).
Qed.
