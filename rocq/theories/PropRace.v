(** Property C75. *)
From Verif Require Import Base Floats TimeBlockBuffer BytePacker File StMan TimeBlockEncoders Block Column ColumnSpec StoredColumn StoredTraces System SystemSpec SystemTraces Accesses RaceSpec Races RaceTraces.
Local Open Scope N_scope.

(** C75: no two threads are about to do conflicting things. *)
Theorem C75_no_race : forall cfg T nt (S0 S : sys cfg T nt), nt <> 0%nat -> ants32 T -> sstart cfg T nt S0 -> sreach cfg T nt S0 S ->
  running cfg T nt S -> fits32 (man cfg T nt S) -> no_empty_block S -> ~ data_race S.
Proof. exact (fun cfg T nt S0 S NT HA => no_race cfg T nt NT HA S0 S). Qed.
Print Assumptions C75_no_race.

(** tables written in order, and tables that were opened *)
Theorem C75_in_order : forall cfg T nt m (D : forall i, N -> list (data (colenv cfg T nt i))) K ks S, nt <> 0%nat -> ants32 T -> new_table cfg m ->
  (forall i r, (nSamp (colenv cfg T nt i) <= length (D i r))%nat) -> sys_order cfg T nt m D K ks S -> running cfg T nt S -> fits32 (man cfg T nt S) -> ~ data_race S.
Proof. exact in_order_no_race. Qed.
Print Assumptions C75_in_order.

Theorem C75_opened : forall cfg T nt m S, nt <> 0%nat -> ants32 T -> rowsPerBlock m <> 0 -> sstart cfg T nt (sopen cfg T nt m) -> sreach cfg T nt (sopen cfg T nt m) S ->
  running cfg T nt S -> fits32 (man cfg T nt S) -> ~ data_race S.
Proof. exact opened_no_race. Qed.
Print Assumptions C75_opened.

(** the calling thread and an encoding thread are both going to use the file *)
Example C75_example : sstart ycfg exT 2 ynew /\ sreach ycfg exT 2 ynew (yrun picked0) /\ running ycfg exT 2 (yrun picked0) /\ fits32 (man ycfg exT 2 (yrun picked0)) /\
  no_empty_block (yrun picked0) /\ pending (yrun picked0) Caller (Wm MMan LStream) /\ pending (yrun picked0) (Encoder 0 0) (Wm MMan LStream).
Proof. exact picked_example. Qed.

(** What the calling thread does after the threads of a column were started: the header is
    written while the threads run. *)
Theorem C75_header : forall cfg T nt (S0 S S' S'' : sys cfg T nt) i c j k, nt <> 0%nat -> ants32 T -> sstart cfg T nt S0 -> sreach cfg T nt S0 S ->
  smove cfg T nt S S' -> (i < ncol cfg T nt S)%nat -> code (cst cfg T nt S i) = IStart :: c -> code (cst cfg T nt S' i) = c ->
  encoders_go S' S'' -> running cfg T nt S'' -> fits32 (man cfg T nt S'') ->
  forall a b, In a (late_acc (A := data (colenv cfg T nt i)) (ncol cfg T nt S) i IStart) -> pending S'' (Encoder j k) b -> ~ conflict a b.
Proof. exact (fun cfg T nt S0 S S' S'' i c j k NT HA => header_alone cfg T nt NT HA S0 S S' S'' i c j k). Qed.
Print Assumptions C75_header.

Example C75_header_example : sreach ycfg exT 2 ynew (yrun starting1) /\ (1 < ncol ycfg exT 2 (yrun starting1))%nat /\ running ycfg exT 2 (yrun waits1) /\ fits32 (man ycfg exT 2 (yrun waits1)) /\
  smove ycfg exT 2 (yrun starting1) (yrun started1) /\
  (exists c, code (cst ycfg exT 2 (yrun starting1) 1) = IStart :: c /\ code (cst ycfg exT 2 (yrun started1) 1) = c) /\ encoders_go (yrun started1) (yrun waits1) /\
  pending (yrun started1) (Encoder 1 1) (R LRows) /\ pending (yrun waits1) (Encoder 1 0) (Wm (MCol 1) (LCache 1)).
Proof. exact header_example. Qed.

(** the threads of a column end before the column does *)
Theorem C75_joined : forall cfg T nt (S0 S : sys cfg T nt) i, nt <> 0%nat -> ants32 T -> sstart cfg T nt S0 -> sreach cfg T nt S0 S ->
  running cfg T nt S -> fits32 (man cfg T nt S) -> (i < ncol cfg T nt S)%nat ->
  closed (cst cfg T nt S i) = true -> code (cst cfg T nt S i) = [] -> workers (cst cfg T nt S i) = [].
Proof. exact (fun cfg T nt S0 S i NT HA => joined cfg T nt NT HA S0 S i). Qed.
Print Assumptions C75_joined.

Example C75_joined_example : sreach ycfg exT 2 ynew (yrun removed1) /\ running ycfg exT 2 (yrun removed1) /\ closed (cst ycfg exT 2 (yrun removed1) 1) = true /\
  code (cst ycfg exT 2 (yrun removed1) 1) = [] /\ length (workers (cst ycfg exT 2 (yrun idle0) 1)) = 2%nat.
Proof. exact joined_example. Qed.

(** Removing a column writes the header without the mutex, while an encoding thread of another
    column writes a block. *)
Theorem C75_remove_column_refuted : exists cfg T nt (S0 S : sys cfg T nt) i, nt <> 0%nat /\ ants32 T /\ sstart cfg T nt S0 /\ sreach cfg T nt S0 S /\
  running cfg T nt S /\ fits32 (man cfg T nt S) /\ no_empty_block S /\
  (forall j, (j < ncol cfg T nt S)%nat -> code (cst cfg T nt S j) = []) /\ closed (cst cfg T nt S i) = true /\
  exists j k a b, j <> i /\ In a (remove_acc (ncol cfg T nt S)) /\ pending S (Encoder j k) b /\ conflict a b.
Proof. exact remove_refuted. Qed.
Print Assumptions C75_remove_column_refuted.

(** Adding a column reads the number of blocks without the mutex; here it is still 0, and an
    encoding thread is about to write the first block. *)
Theorem C75_add_column_refuted : exists cfg T nt (S0 S : sys cfg T nt), nt <> 0%nat /\ ants32 T /\ sstart cfg T nt S0 /\ sreach cfg T nt S0 S /\
  running cfg T nt S /\ fits32 (man cfg T nt S) /\ no_empty_block S /\
  (forall j, (j < ncol cfg T nt S)%nat -> code (cst cfg T nt S j) = [] /\ closed (cst cfg T nt S j) = false) /\ nBlocksInFile (man cfg T nt S) = 0 /\
  exists j k a b, In a add_acc /\ pending S (Encoder j k) b /\ conflict a b.
Proof. exact add_refuted. Qed.
Print Assumptions C75_add_column_refuted.

(** Without [no_empty_block]: a row of a later time, and then row 0 twice. *)
Theorem C75_row0_refuted : exists cfg T nt (S0 S : sys cfg T nt), nt <> 0%nat /\ ants32 T /\ sstart cfg T nt S0 /\ sreach cfg T nt S0 S /\
  running cfg T nt S /\ fits32 (man cfg T nt S) /\ data_race S.
Proof. exact row0_refuted. Qed.
Print Assumptions C75_row0_refuted.
