(** Property theorems C70: a stored table is copied (deepCopy), as the option -reorder of
    dscompress and decompress do.  Statements only. *)
From Coq Require Import Reals String Ascii.
From Flocq Require Import Core.
From Verif Require Import Base Floats TimeBlockBuffer BytePacker File StMan StManSpec SpecRecord.
From Verif Require Import BitStream StochasticEncoder TimeBlockEncoders TbeSpec TbeExamples Weights WeightSpec Block BlockSpec Column ColumnSpec StoredColumn StoredTraces System SystemSpec SystemTraces UpdateSpec SessionSpec SystemSessions UpdateTraces DamageTraces RemovalTraces
  Production ProductionSpec Copy CopySpec SystemCopy CopyTraces CopyWeights ProductionCopy PropSystem PropUpdate.
From Verif Require Dscompress.
Local Open Scope N_scope.

(** ** C70 *)
(** The copy of a stored table gets the settings and the columns of the table; putting the
    rows that are read from the table never fails, every call ends and the copy can be
    closed; it can be opened.  Every row of the copy is what the table holds ([d]), up to
    the error of the normalization.  (Not for Student's distribution, below.) *)
Theorem C70_copied : forall cfg T nt m0 D K L n na, writable cfg T nt m0 D K L n na ->
  forall m m3 nrow, stored_table cfg T nt m0 D K m -> opened_from m m3 -> known_settings m0 -> distribution m0 <> 2 ->
  exists m' D', copyMan nrow m3 = Ok m' /\ same_options m0 m' /\ Forall2 same_column (columns m0) (columns m') /\
    (forall i r, (i < List.length (columns m0))%nat -> r < K -> held_row cfg T nt m i r = Some (D' i r)) /\
    forall ks S, sys_order cfg T nt m' D' K ks S ->
      running cfg T nt S /\ sfinishes S /\ (K <= 2 ^ 32 -> exists ks' S', sreach cfg T nt S S' /\ sys_order cfg T nt m' D' K ks' S' /\ all_closed S') /\
      (all_closed S -> (forall mo nr, reopens (man cfg T nt S) mo -> exists m2 m4, openMan nr mo = Ok m2 /\ prepareMan m2 = Ok m4 /\ same_options m0 m4) /\
        forall i r, (i < List.length (columns m0))%nat -> r < K ->
        exists d out x y, held_row cfg T nt m i r = Some d /\ held_row cfg T nt (man cfg T nt S) i r = Some out /\ held_block cfg T nt (man cfg T nt S) i (r / n) = Some y /\
          exact_block (colenv cfg T nt i) (D' i) K n (r / n) x /\
          kept (cfg i) (L i) na x (floats (nMetaFloats (codec_of (cfg i)) (N.to_nat n) na) y) (DRow (fst (t_ants T r)) (snd (t_ants T r)) d) out).
Proof. exact copied. Qed.
Print Assumptions C70_copied.

(** In short: the copy can itself be written as a new table, with all that follows (C64,
    C65, C68, also that it can be copied again). *)
Theorem C70_copy_writable : forall cfg T nt m0 D K L n na, writable cfg T nt m0 D K L n na ->
  forall m m3 nrow, stored_table cfg T nt m0 D K m -> opened_from m m3 -> known_settings m0 -> distribution m0 <> 2 ->
  exists m' D', copyMan nrow m3 = Ok m' /\ same_options m0 m' /\ Forall2 same_column (columns m0) (columns m') /\
    (forall i r, (i < List.length (columns m0))%nat -> r < K -> held_row cfg T nt m i r = Some (D' i r)) /\
    writable cfg T nt m' D' K L n na.
Proof. exact copy_writable. Qed.
Print Assumptions C70_copy_writable.

(** And of a table that was just written, the rows are what was put, up to that error; so
    in its copy the error is made twice. *)
Theorem C70_first_error : forall cfg T nt m0 D K L n na, writable cfg T nt m0 D K L n na ->
  forall ks S, sys_order cfg T nt m0 D K ks S -> all_closed S -> forall i r, (i < List.length (columns m0))%nat -> r < K ->
  exists out x y, held_row cfg T nt (man cfg T nt S) i r = Some out /\ held_block cfg T nt (man cfg T nt S) i (r / n) = Some y /\ exact_block (colenv cfg T nt i) (D i) K n (r / n) x /\
    kept (cfg i) (L i) na x (floats (nMetaFloats (codec_of (cfg i)) (N.to_nat n) na) y)
      (DRow (fst (t_ants T r)) (snd (t_ants T r)) (firstn (nPol_of (cfg i) * nChan_of (cfg i)) (D i r))) out.
Proof. exact written_rows. Qed.
Print Assumptions C70_first_error.

(** Not so for weights that were put as zero or normal numbers: those of the copy are
    equal to those of the table. *)
Theorem C70_weights_equal : forall cfg T nt m0 D K L n na, writable cfg T nt m0 D K L n na ->
  forall ks S m' D', sys_order cfg T nt m0 D K ks S -> all_closed S -> Forall2 same_column (columns m0) (columns m') ->
  (forall i r, (i < List.length (columns m0))%nat -> r < K -> held_row cfg T nt (man cfg T nt S) i r = Some (D' i r)) -> writable cfg T nt m' D' K L n na ->
  forall ks' S', sys_order cfg T nt m' D' K ks' S' -> all_closed S' ->
  forall i r, (i < List.length (columns m0))%nat -> r < K -> normal_weights (cfg i) (D i) ->
  held_row cfg T nt (man cfg T nt S') i r = held_row cfg T nt (man cfg T nt S) i r.
Proof. exact copy_weights. Qed.
Print Assumptions C70_weights_equal.

(** The columns of the copy are prepared as those of the table: with the same encoder. *)
Theorem C70_prepared : forall G m0 m' cfg, same_options m0 m' -> Forall2 same_column (columns m0) (columns m') -> all_prepared G m0 cfg -> all_prepared G m' cfg.
Proof. exact copy_prepared. Qed.
Print Assumptions C70_prepared.

(** dscompress makes managers of which the tables can be copied, unless Student's
    distribution is chosen. *)
Theorem C70_dscompress : forall Phi Tc dn G o p n rows cols flags weights,
  options_ok Phi Tc dn G o -> compressible o p n rows cols flags weights ->
  forall cols' m e, tool_ready G o p n rows cols flags cols' m e ->
  known_settings m /\ (distribution m = 2 <-> Dscompress.o_distribution o = Dscompress.StudentsT).
Proof. exact tool_known. Qed.
Print Assumptions C70_dscompress.

(** Full statement (false): a stored table can be copied.  With Student's distribution it
    never can: the name in the specification is not one that setFromSpec knows (C30). *)
Theorem C70_students_refuted : forall m nrow, distribution m = 2 -> copyMan nrow m = Throw.
Proof. exact copied_student. Qed.
Print Assumptions C70_students_refuted.

(** [Reorder] puts the copy in the place of the table and leaves the other tables as they
    are, but for the one with the temporary name; slashes at the end of the path do not matter. *)
Theorem C70_replaced : forall A (copy : A -> res A) files loc p a t t', a <> "/"%char -> slashes (p ++ String a "") loc -> files loc = Some t -> copy t = Ok t' ->
  exists f, Reorder copy files loc = Ok f /\ f loc = Some t' /\ f (p ++ String a "temp")%string = None /\ forall x, x <> loc -> x <> (p ++ String a "temp")%string -> f x = files x.
Proof. exact @reordered. Qed.
Print Assumptions C70_replaced.

(** If the copy fails, it fails before the table is removed. *)
Theorem C70_copy_fails : forall A (copy : A -> res A) files loc p a t, a <> "/"%char -> slashes (p ++ String a "") loc -> files loc = Some t -> copy t = Throw ->
  Reorder copy files loc = Throw.
Proof. exact @reorder_fails. Qed.
Print Assumptions C70_copy_fails.

(** A path of slashes only is undefined behaviour. *)
Theorem C70_slashes_refuted : forall loc, slashes "" loc -> temp_name loc = UB.
Proof. exact temp_name_bad. Qed.
Print Assumptions C70_slashes_refuted.

(** Full statement (false): no other table is touched.  One with the temporary name is lost. *)
Theorem C70_other_table_refuted : exists (copy : nat -> res nat) files f, Reorder copy files "obs.ms/" = Ok f /\
  files "obs.mstemp"%string = Some 2%nat /\ (forall x, x <> "obs.ms/"%string -> f x <> Some 2%nat).
Proof.
  exists (fun t => Ok t), (fun x => if String.eqb x "obs.ms/" then Some 1%nat else if String.eqb x "obs.mstemp" then Some 2%nat else None).
  eexists. split; [reflexivity|]. split; [reflexivity|]. intros x Hx. cbv beta. cbn [String.eqb]. rewrite (proj2 (String.eqb_neq _ _) Hx).
  cbn [rev app string_of_list_ascii append]. destruct (String.eqb x "obs.mstemp"); discriminate.
Qed.
Print Assumptions C70_other_table_refuted.

(** The table of C68_example and its copy: some of the data change (the samples 1622 to 1923,
    -2560 to 0), the weights do not. *)
Example C70_example :
  writable ycfg exT 2 yman yD 6 yL 4 3 /\ stored_table ycfg exT 2 yman yD 6 (man ycfg exT 2 yend) /\ opened_from (man ycfg exT 2 yend) yopened /\
  known_settings yman /\ distribution yman <> 2 /\ copyMan 6 yopened = Ok cman /\ (exists ks, sys_order ycfg exT 2 cman cD 6 ks cend) /\ all_closed cend /\
  normal_weights (ycfg 1) (yD 1) /\
  shown_rows (man ycfg exT 2 yend) =
    ([Some [(Num 2779, Num 2779); (Num (-3071), Num 3071)]; Some [(Num 4096, Num 4096); (Num 4526, NaN)]; Some [(Num 0, Num 0); (Num 0, Num 0)];
      Some [(NaN, Num 1622); (Num 1792, Num 1792)]; Some [(Num 2560, Num (-2560)); (Num 3633, Num 3633)]; Some [(Num 1082, Num 1082); (Num 1536, Num 1536)]],
     [Some [Num 1024; Num 1024; Num 0; Num 0]; Some [Num 4096; Num 4096; Num 1024; Num 1024]; Some [Num 2048; Num 2048; Num 3071; Num 3071];
      Some [Num 2048; Num 2048; Num 3071; Num 3071]; Some [Num 2048; Num 2048; Num 3072; Num 3072]; Some [Num 1024; Num 1024; Num 512; Num 512]]) /\
  shown_rows (man ycfg exT 2 cend) =
    ([Some [(Num 2779, Num 2779); (Num (-3071), Num 3071)]; Some [(Num 4096, Num 4096); (Num 4526, NaN)]; Some [(Num 0, Num 0); (Num 0, Num 0)];
      Some [(NaN, Num 1923); (Num 2125, Num 2125)]; Some [(Num 2560, Num 0); (Num 3633, Num 3633)]; Some [(Num 1082, Num 1082); (Num 1536, Num 1536)]],
     [Some [Num 1024; Num 1024; Num 0; Num 0]; Some [Num 4096; Num 4096; Num 1024; Num 1024]; Some [Num 2048; Num 2048; Num 3071; Num 3071];
      Some [Num 2048; Num 2048; Num 3071; Num 3071]; Some [Num 2048; Num 2048; Num 3072; Num 3072]; Some [Num 1024; Num 1024; Num 512; Num 512]]) /\
  slashes ("/data/obs.m" ++ "s") "/data/obs.ms//" /\ temp_name "/data/obs.ms//" = Ok "/data/obs.mstemp"%string /\ slashes "" "/".
Proof.
  refine (conj (proj1 C64_example) (conj ystored (conj ropened (conj cknown (conj _ (conj ccopied (conj corder (conj cclosed (conj cnormal _))))))))); [discriminate|].
  split; [vm_compute; reflexivity|]. split; [vm_compute; reflexivity|]. split; [apply (sl_more _ "/data/obs.ms/"), (sl_more _ "/data/obs.ms"), sl_none|]. split; [reflexivity|]. apply (sl_more "" ""), sl_none.
Qed.
