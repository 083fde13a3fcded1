(** Property theorems C66, C67: columns as a program sets them up, and tables written by
    dscompress.  Statements only. *)
From Coq Require Import Reals Lia String.
From Flocq Require Import Core.
From Verif Require Import Base Floats TimeBlockBuffer BytePacker File StMan StManSpec.
From Verif Require Import BitStream StochasticEncoder EncoderTables NormalSpec NormalExists TableSpec TableMore TimeBlockEncoders TbeSpec Weights WeightSpec Block BlockSpec Column ColumnSpec StoredColumn
  System SystemSpec SystemAll Production ProductionSpec ProductionProofs ProductionTool ProductionExamples.
From Verif Require Dscompress DsSpec DsExamples.
Local Open Scope N_scope.

(** ** C66 *)
(** For the settings that are supported, Prepare makes an encoder whose levels are the
    quantiles of the distribution, and it makes only one. *)
Theorem C66_encoder : forall Phi T d G m, settings_ok Phi T d G m ->
  exists e L, encoder_of G m e /\ levels e L /\ bit_encoder e (dataBitCount m) /\ table_of (quantiles Phi T m) (quantCount m) e /\
  forall e', encoder_of G m e' -> e' = e.
Proof.
  intros Phi T d G m H. destruct (encoder_table Phi T d G m H) as (e & L & H1 & H2 & H3 & H4). exists e, L.
  exact (conj H1 (conj H2 (conj H3 (conj H4 (fun e' => encoder_unique G m e e' H1))))).
Qed.
Print Assumptions C66_encoder.

(** So every column can be prepared, and it is then what C63 to C65 ask for. *)
Theorem C66_columns : forall Phi T d G m, settings_ok Phi T d G m ->
  exists cfg L, all_prepared G m cfg /\ (forall i, coldef_ok (cfg i) L) /\
  forall cfg', all_prepared G m cfg' -> forall i, (i < length (columns m))%nat -> cfg' i = cfg i.
Proof. exact columns_prepared. Qed.
Print Assumptions C66_columns.

(** When the table is opened again, the columns are prepared the same: the settings in the
    file are enough to decode it. *)
Theorem C66_reopened : forall cfg T nt m0 D K L n na G, writable cfg T nt m0 D K L n na -> all_prepared G m0 cfg ->
  forall ks S, sys_order cfg T nt m0 D K ks S -> all_closed S -> forall mo nr, reopens (man cfg T nt S) mo ->
  exists m2 m3, openMan nr mo = Ok m2 /\ prepareMan m2 = Ok m3 /\ all_prepared G m3 cfg /\
  forall cfg', all_prepared G m3 cfg' -> forall i, (i < length (columns m0))%nat -> cfg' i = cfg i.
Proof. exact prepared_reopened. Qed.
Print Assumptions C66_reopened.

(** All distributions and normalizations, with a library that is accurate enough. *)
Example C66_example : forall d n, settings_ok Phi cauchy cauchy_density good_gsl (tool_settings (ex_options d n)) /\
  quantCount (tool_settings (ex_options d n)) = N.to_nat 256 /\ double_of (truncation (tool_settings (ex_options Dscompress.TruncatedGaussian n))) = dy 5 (-1).
Proof. intros d n. exact (conj (good_settings d n) (conj eq_refl (double_of_bits (dy 5 (-1))))). Qed.

(** ** C67 *)
(** The tool gets as far as copying the data, *)
Theorem C67_ready : forall Phi Tc dn G o p n rows cols flags weights,
  options_ok Phi Tc dn G o -> compressible o p n rows cols flags weights ->
  exists cols' m e L, tool_ready G o p n rows cols flags cols' m e /\ levels e L /\ all_prepared G m (config m e).
Proof. exact tool_exists. Qed.
Print Assumptions C67_ready.

(** with columns and quantization levels as the options ask, *)
Theorem C67_options : forall Phi Tc dn G o p n rows cols flags weights,
  options_ok Phi Tc dn G o -> compressible o p n rows cols flags weights ->
  forall cols' m e, tool_ready G o p n rows cols flags cols' m e ->
  table_of (option_quantiles Phi Tc o) (Z.to_nat (2 ^ Dscompress.o_bits o)) e /\ dataBitCount m = Z.to_N (Dscompress.o_bits o) /\
  List.length (columns m) = List.length (Dscompress.o_columns o) /\
  forall i c, nth_error (Dscompress.o_columns o) i = Some c -> config m e i = option_column o e p n c.
Proof. exact tool_options. Qed.
Print Assumptions C67_options.

(** with a block size that the table determines. *)
Theorem C67_block_size : forall o p n rows cols flags weights, compressible o p n rows cols flags weights ->
  forall m e T nt, reads_table T rows ->
  exists nb na, first_block (colenv (config m e) T nt 0) nb /\ antenna_count (colenv (config m e) T nt 0) nb na /\ nb < N.of_nat (List.length rows).
Proof.
  intros o p n rows cols flags weights H m e T nt HT. destruct (table_sizes o p n rows cols flags weights H m e T nt HT) as (nb & na & H1 & H2 & H3 & _). exists nb, na. exact (conj H1 (conj H2 H3)).
Qed.
Print Assumptions C67_block_size.

(** While it copies, no call fails, every call ends, and the table can be closed.  The
    columns may even be copied in turns. *)
Theorem C67_written : forall Phi Tc dn G o p n rows cols flags weights,
  options_ok Phi Tc dn G o -> compressible o p n rows cols flags weights ->
  forall cols' m e, tool_ready G o p n rows cols flags cols' m e ->
  forall T nt nb na L, nt <> 0%nat -> reads_table T rows ->
  let cfg := config m e in let D := moved cfg (Dscompress.o_columns o) cols' weights (p * n) in let K := N.of_nat (List.length rows) in
  first_block (colenv cfg T nt 0) nb -> antenna_count (colenv cfg T nt 0) nb na -> total nb (N.of_nat na) (columns m) < 2 ^ 32 -> levels e L ->
  forall ks S, sys_order cfg T nt m D K ks S ->
  running cfg T nt S /\ sfinishes S /\ (K <= 2 ^ 32 -> exists ks' S', sreach cfg T nt S S' /\ sys_order cfg T nt m D K ks' S' /\ all_closed S').
Proof. exact tool_written. Qed.
Print Assumptions C67_written.

(** Opened again, the columns are prepared as they were when written; reading never
    fails, and of every row of every column that is read: flagged samples are NaN and
    the others are what the measurement set had, up to the error of the normalization. *)
Theorem C67_read_back : forall Phi Tc dn G o p n rows cols flags weights,
  options_ok Phi Tc dn G o -> compressible o p n rows cols flags weights ->
  forall cols' m e, tool_ready G o p n rows cols flags cols' m e ->
  forall T nt nb na L, nt <> 0%nat -> reads_table T rows ->
  let cfg := config m e in let names := Dscompress.o_columns o in let D := moved cfg names cols' weights (p * n) in let K := N.of_nat (List.length rows) in
  first_block (colenv cfg T nt 0) nb -> antenna_count (colenv cfg T nt 0) nb na -> total nb (N.of_nat na) (columns m) < 2 ^ 32 -> levels e L ->
  forall ks S, sys_order cfg T nt m D K ks S -> all_closed S -> forall mo nr, reopens (man cfg T nt S) mo ->
  exists m2 m3, openMan nr mo = Ok m2 /\ prepareMan m2 = Ok m3 /\ all_prepared G m3 cfg /\
    forall S', sys_reading (fun r => r < K) (sopen cfg T nt m3) S' -> running cfg T nt S' /\ sfinishes S' /\
    forall i r a, (i < List.length names)%nat -> In (r, a) (outs (cst cfg T nt S' i)) -> r < K /\
    exists f d w out x meta, nth_error flags (N.to_nat r) = Some f /\ nth_error weights (N.to_nat r) = Some w /\
      (nth i names EmptyString <> "WEIGHT_SPECTRUM"%string -> exists l, cols (nth i names EmptyString) = Some l /\ nth_error l (N.to_nat r) = Some d) /\
      a = AVals out /\ flags_kept (cfg i) f out /\ exact_block (colenv cfg T nt i) (D i) K nb (r / nb) x /\
      kept (cfg i) L na x meta (DRow (fst (t_ants T r)) (snd (t_ants T r)) (choose (cfg i) (flagged f d) w)) out.
Proof. exact tool_read_back. Qed.
Print Assumptions C67_read_back.

(** A measurement set with two time blocks of two baselines, one channel of two samples in
    which two samples are flagged, with all kinds of options; it can be compressed and
    closed. *)
Example C67_example : forall d n,
  options_ok Phi cauchy cauchy_density good_gsl (ex_options d n) /\
  compressible (ex_options d n) 1 2 DsExamples.good_rows ex_cols ex_flags ex_weights /\ reads_table ex_table DsExamples.good_rows /\
  exists cols' m e L, tool_ready good_gsl (ex_options d n) 1 2 DsExamples.good_rows ex_cols ex_flags cols' m e /\ levels e L /\
  first_block (colenv (config m e) ex_table 2 0) 2 /\ antenna_count (colenv (config m e) ex_table 2 0) 2 3 /\ total 2 3 (columns m) < 2 ^ 32 /\
  exists ks S, sys_order (config m e) ex_table 2 m (moved (config m e) (Dscompress.o_columns (ex_options d n)) cols' ex_weights 2) 4 ks S /\ all_closed S.
Proof. exact tool_example. Qed.
