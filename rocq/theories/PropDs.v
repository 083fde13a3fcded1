(** Property theorems C43, C44, C53-C56: the dscompress and decompress tools.  Statements only. *)
From Verif Require Import Base Floats Dscompress DsSpec DsProofs DsMore DsColumn DsExamples Column ColumnSpec TimeBlockBuffer.
From Coq Require Import List.

(** ** C43 *)
(** [regular]: DsSpec.v.  TIME of row 0 must not be NaN, see C43_nan_refuted. *)
Theorem C43_accepts_exactly_regular : forall rows, (forall r, hd_error rows = Some r -> is_nan (Dscompress.time r) = false) ->
  (validate rows = Ok tt <-> regular rows).
Proof. exact validate_regular_all. Qed.
Print Assumptions C43_accepts_exactly_regular.

(** All other tables are rejected, except when they start with at least two regular blocks of which the last
    goes on for one more row: then a vector is read behind its end. *)
Theorem C43_undefined_exactly : forall r0 rows, is_nan (Dscompress.time r0) = false -> (validate (r0 :: rows) = UB <->
  exists p x r q, r0 :: rows = (p ++ [x]) ++ r :: q /\ (exists b1 b2 bs, regular_blocks (p ++ [x]) (b1 :: b2 :: bs)) /\ same_key x r).
Proof. exact validate_ub. Qed.
Print Assumptions C43_undefined_exactly.

Example C43_example : is_nan (Dscompress.time (row 0 1 t0)) = false /\ validate good_rows = Ok tt /\ validate short_rows = Throw /\ validate other_rows = Throw.
Proof. exact (conj eq_refl (conj good_ok (conj short_throws other_throws))). Qed.

(** Full statement (false): every irregular table is reported *)
Theorem C43_longer_block_refuted : exists rows, validate rows = UB.
Proof. exact (ex_intro _ long_rows long_ub). Qed.
Print Assumptions C43_longer_block_refuted.

Theorem C43_nan_refuted : forall r0 rows, is_nan (Dscompress.time r0) = true -> validate (r0 :: rows) = UB.
Proof. exact validate_nan. Qed.
Print Assumptions C43_nan_refuted.

(** ** C44 *)
Theorem C44_flagged_samples : forall flags names cols cols',
  (forall n d, cols n = Some d -> length d = length flags) -> flag_columns names cols flags = Ok cols' ->
  forall n, (In n names /\ n <> "WEIGHT_SPECTRUM"%string ->
     exists d d', cols n = Some d /\ cols' n = Some d' /\ length d' = length d /\
       forall i r, nth_error d i = Some r -> exists r', nth_error d' i = Some r' /\ length r' = length r /\
         forall j x, nth_error r j = Some x -> nth_error r' j = Some (if nth j (nth i flags []) false then (nan32, nan32) else x)) /\
   (~ In n names \/ n = "WEIGHT_SPECTRUM"%string -> cols' n = cols n).
Proof.
  exact (fun flags names cols cols' H => flag_columns_spec flags names cols cols'
    (fun n => match cols n as o return cols n = o -> match o with Some d => length d = length flags | None => True end with
              | Some d => H n d | None => fun _ => I end eq_refl)).
Qed.
Print Assumptions C44_flagged_samples.

Theorem C44_defined : forall flags names, flags <> [] -> forall nf, Forall (fun f => length f = nf) flags ->
  forall cols, (forall n, In n names -> n <> "WEIGHT_SPECTRUM"%string ->
    exists d, cols n = Some d /\ length d = length flags /\ Forall (fun r => length r = nf) d) ->
  exists cols', flag_columns names cols flags = Ok cols'.
Proof. exact flag_columns_total. Qed.
Print Assumptions C44_defined.

Example C44_example : let d := [[(of32 1, of32 2); (of32 3, of32 4)]] in
  flag_columns ["DATA"%string] (fun n => if String.eqb n "DATA" then Some d else None) [[true; false]] <> UB /\
  (fun n => if String.eqb n "DATA" then Some d else None) "DATA"%string = Some d /\ Forall (fun r : list cf32 => length r = 2%nat) d.
Proof. split; [cbn; discriminate|]. split; [reflexivity|]. constructor; [reflexivity|constructor]. Qed.

(** ** C53 *)
(** [describes]: the column reads its keys from this table.  The tool writes rows 0, 1, ... in order. *)
Theorem C53_accepted_table_is_stored : forall e (D : N -> list (data e)) r0 rows,
  (nthreads e <> 0)%nat -> (forall r, (nSamp e <= length (D r))%nat) ->
  describes e (r0 :: rows) -> validate (r0 :: rows) = Ok tt -> (exists x, In x rows /\ ~ same_key r0 x) ->
  forall o k (s : state e), in_order o D k s ->
    status s <> Undefined /\
    (k = N.of_nat (length (r0 :: rows)) -> closed s = true -> code s = [] -> status s = Running ->
      exists n, first_block e n /\ forall r, (r < k)%N -> exists y x rw, file s (r / n)%N = Some y /\ enc e n (nant s) x y /\
        nth_error x (N.to_nat (r mod n)) = Some rw /\ visibilities rw = firstn (nSamp e) (D r)).
Proof. exact accepted_written. Qed.
Print Assumptions C53_accepted_table_is_stored.

Example C53_example : describes good_env good_rows /\ validate good_rows = Ok tt /\ nthreads good_env <> 0%nat /\
  (exists x, In x (tl good_rows) /\ ~ same_key (row 0 1 t0) x).
Proof.
  split; [exact good_describes|]. split; [exact good_ok|]. split; [discriminate|]. exists (row 0 1 t1). split; [right; now left|].
  intros (H & _). vm_compute in H. discriminate.
Qed.

(** ** C54 *)
Theorem C54_options_taken : forall atoi atof l path rest, ~ dashed path ->
  exists o, command_line atoi atof (flat_map written l ++ path :: rest) = Ok (Some (o, path)) /\ settings atoi atof l o.
Proof. exact command_line_ok. Qed.
Print Assumptions C54_options_taken.

(** every command line has one of these forms *)
Theorem C54_all_command_lines : forall args, exists l rest, args = flat_map written l ++ rest /\
  (rest = [] \/ (exists p r, rest = p :: r /\ ~ dashed p) \/ (exists a, rest = [a] /\ cut_off a) \/ (exists a r, rest = a :: r /\ dashed a /\ ~ known a)).
Proof. exact arguments. Qed.
Print Assumptions C54_all_command_lines.

Theorem C54_unknown_option_rejected : forall atoi atof l a r, dashed a -> ~ known a -> command_line atoi atof (flat_map written l ++ a :: r) = Throw.
Proof. exact (fun atoi atof l a r D K => proj2 (command_line_bad atoi atof l (a :: r) (not_eq_sym (app_cons_not_nil (flat_map written l) r a))) (ex_intro _ a (ex_intro _ r (conj eq_refl (conj D K))))). Qed.
Print Assumptions C54_unknown_option_rejected.

Theorem C54_no_arguments : forall atoi atof, command_line atoi atof [] = Ok None.
Proof. exact (fun _ _ => eq_refl). Qed.
Print Assumptions C54_no_arguments.

(** Full statement (false): an incomplete command line is reported.  A null pointer is used instead. *)
Theorem C54_incomplete_refuted : forall atoi atof l rest, flat_map written l ++ rest <> [] -> rest = [] \/ (exists a, rest = [a] /\ cut_off a) ->
  command_line atoi atof (flat_map written l ++ rest) = UB.
Proof. exact (fun atoi atof l rest Ne => proj1 (command_line_bad atoi atof l rest Ne)). Qed.
Print Assumptions C54_incomplete_refuted.

Example C54_example : flat_map written [OBits "4"; OUniform; OColumn "MODEL_DATA"] ++ ["a.ms"%string] =
    ["-data-bit-rate"; "4"; "-uniform"; "-column"; "MODEL_DATA"; "a.ms"]%string /\ ~ dashed "a.ms" /\ cut_off "-column".
Proof. split; [reflexivity|]. split; [intros [p H]; discriminate|]. cbn. tauto. Qed.

(** ** C55 *)
(** [false]: the table has no DyscoStMan with data yet *)
Theorem C55_columns_replaced : forall V (vshape : V -> list nat) store nrow removed sh names (t : table V) (f : string -> list V), NoDup names -> names <> [] ->
  (forall n, In n names -> exists c, t n = Some c /\ full vshape sh c (f n) /\ c_manager c <> "DyscoStMan"%string) ->
  (forall n, In n names -> t (temp_name n) = None) ->
  exists t', replace_columns vshape store nrow removed false names t = Ok t' /\
    (forall n, In n names -> t' n = Some (Col "DyscoStMan" sh (map Some (map (store "DyscoStMan"%string) (f n))))) /\
    (forall m, ~ In m names -> t' m = t m).
Proof. exact @replace_ok. Qed.
Print Assumptions C55_columns_replaced.

(** Full statement (false): columns that are already compressed are left alone, the others are replaced.
    If both kinds are given the tool fails, after renaming the latter. *)
Theorem C55_mixed_refuted : forall V (vshape : V -> list nat) store nrow removed committed names (t : table V) n m c c', In n names -> In m names ->
  t n = Some c -> c_manager c = "DyscoStMan"%string -> t m = Some c' -> c_manager c' <> "DyscoStMan"%string ->
  replace_columns vshape store nrow removed committed names t = Throw.
Proof. exact @mixed_fails. Qed.
Print Assumptions C55_mixed_refuted.

(** Full statement (false): further columns can be compressed later.  A second run fails, after the columns
    have been renamed: the storage manager does not accept columns once it has data. *)
Theorem C55_second_run_refuted : forall V (vshape : V -> list nat) store nrow removed names (t : table V) n c, In n names ->
  t n = Some c -> c_manager c <> "DyscoStMan"%string -> replace_columns vshape store nrow removed true names t = Throw.
Proof. exact @committed_fails. Qed.
Print Assumptions C55_second_run_refuted.

Example C55_example : let c := Col "StandardStMan" [1%nat] [Some 5%nat; Some 6%nat] in let t : table nat := fun n => if String.eqb n "DATA" then Some c else None in
  full (fun _ => [1%nat]) [1%nat] c [5%nat; 6%nat] /\ t "DATA"%string <> None /\ t (temp_name "DATA") = None /\
  match replace_columns (fun _ => [1%nat]) (fun _ v => v) 2 (fun r => r) false ["DATA"%string] t with Ok t' => t' "DATA"%string | _ => None end = Some (Col "DyscoStMan" [1%nat] [Some 5%nat; Some 6%nat]).
Proof. split; [|split; [discriminate|split; vm_compute; reflexivity]]. split; [reflexivity|]. split; [discriminate|]. repeat constructor. Qed.

(** ** C56 *)
(** [defm] is the default storage manager, which decompress uses for the new columns.  One of the two columns compressed: *)
Theorem C56_data_decompressed : forall V (vshape : V -> list nat) store nrow removed defm sh1 (t : table V) c1 c2 v1, defm <> "DyscoStMan"%string ->
  t "DATA"%string = Some c1 -> full vshape sh1 c1 v1 -> c_manager c1 = "DyscoStMan"%string ->
  t "WEIGHT_SPECTRUM"%string = Some c2 -> c_manager c2 <> "DyscoStMan"%string -> t "TEMP_DATA"%string = None ->
  exists t', decompress vshape store nrow removed defm t = Ok t' /\
    t' "DATA"%string = Some (Col defm sh1 (map Some (map (store defm) v1))) /\
    forall m, m <> "DATA"%string -> (forall c, t m = Some c -> c_manager c <> "DyscoStMan"%string) -> t' m = t m.
Proof. exact @decompress_data. Qed.
Print Assumptions C56_data_decompressed.

Theorem C56_weights_decompressed : forall V (vshape : V -> list nat) store nrow removed defm sh2 (t : table V) c1 c2 v2, defm <> "DyscoStMan"%string ->
  t "DATA"%string = Some c1 -> c_manager c1 <> "DyscoStMan"%string ->
  t "WEIGHT_SPECTRUM"%string = Some c2 -> full vshape sh2 c2 v2 -> c_manager c2 = "DyscoStMan"%string -> t "TEMP_WEIGHT_SPECTRUM"%string = None ->
  exists t', decompress vshape store nrow removed defm t = Ok t' /\
    t' "WEIGHT_SPECTRUM"%string = Some (Col defm sh2 (map Some (map (store defm) v2))) /\
    forall m, m <> "WEIGHT_SPECTRUM"%string -> (forall c, t m = Some c -> c_manager c <> "DyscoStMan"%string) -> t' m = t m.
Proof. exact @decompress_weights. Qed.
Print Assumptions C56_weights_decompressed.

(** Both compressed: DATA is moved and removed from the DyscoStMan first, so that the weights are taken from what
    the removal leaves.  What that is: C56_weights_shifted and C56_weights_refuted, PropRemove.v. *)
Theorem C56_decompressed : forall V (vshape : V -> list nat) store nrow removed defm sh1 sh2 (t : table V) c1 c2 v1 v2 w2, defm <> "DyscoStMan"%string ->
  t "DATA"%string = Some c1 -> full vshape sh1 c1 v1 -> c_manager c1 = "DyscoStMan"%string ->
  t "WEIGHT_SPECTRUM"%string = Some c2 -> full vshape sh2 c2 v2 -> c_manager c2 = "DyscoStMan"%string ->
  removed (c_rows c2) = map Some w2 -> Forall (fun v => vshape v = sh2) w2 ->
  t "TEMP_DATA"%string = None -> t "TEMP_WEIGHT_SPECTRUM"%string = None ->
  exists t', decompress vshape store nrow removed defm t = Ok t' /\
    t' "DATA"%string = Some (Col defm sh1 (map Some (map (store defm) v1))) /\
    t' "WEIGHT_SPECTRUM"%string = Some (Col defm sh2 (map Some (map (store defm) w2))) /\
    forall m, m <> "DATA"%string -> m <> "WEIGHT_SPECTRUM"%string -> (forall c, t m = Some c -> c_manager c <> "DyscoStMan"%string) -> t' m = t m.
Proof. exact @decompress_ok. Qed.
Print Assumptions C56_decompressed.

(** Full statement (false): a table in which only DATA is compressed is decompressed.  Without WEIGHT_SPECTRUM
    the tool fails, after DATA has become an empty column. *)
Theorem C56_no_weights_refuted : forall V (vshape : V -> list nat) store nrow removed defm sh (t : table V) c vs,
  t "DATA"%string = Some c -> full vshape sh c vs -> c_manager c = "DyscoStMan"%string ->
  t "TEMP_DATA"%string = None -> t "WEIGHT_SPECTRUM"%string = None ->
  decompress vshape store nrow removed defm t = Throw /\
  exists t1, InitColumnWithDefaultStMan vshape nrow defm t "DATA" = Ok (t1, true) /\
    t1 "DATA"%string = Some (Col defm sh (repeat None nrow)) /\ t1 "TEMP_DATA"%string = Some c.
Proof. exact @decompress_no_weights. Qed.
Print Assumptions C56_no_weights_refuted.

(** [removed] changes the values here: rows 5 and 6 of the weights become 105 and 106 *)
Example C56_example : let c1 := Col "DyscoStMan" [1%nat] [Some 5%nat; Some 6%nat] in let w := Col "StandardStMan" [1%nat] [Some 7%nat; Some 8%nat] in
  let one := fun n => if String.eqb n "DATA" then Some c1 else if String.eqb n "WEIGHT_SPECTRUM" then Some w else None in
  let both := fun n => if String.eqb n "DATA" then Some c1 else if String.eqb n "WEIGHT_SPECTRUM" then Some c1 else None in
  let shift := map (option_map (fun x => x + 100)%nat) in
  let rows t n := match decompress (fun _ : nat => [1%nat]) (fun _ v => v) 2 shift "StandardStMan" t with Ok t' => option_map c_rows (t' n) | _ => None end in
  full (fun _ : nat => [1%nat]) [1%nat] c1 [5%nat; 6%nat] /\
  rows one "DATA"%string = Some [Some 5%nat; Some 6%nat] /\ rows one "WEIGHT_SPECTRUM"%string = Some [Some 7%nat; Some 8%nat] /\ rows one "TEMP_DATA"%string = None /\
  rows both "DATA"%string = Some [Some 5%nat; Some 6%nat] /\ rows both "WEIGHT_SPECTRUM"%string = Some [Some 105%nat; Some 106%nat].
Proof. split; [|vm_compute; auto]. split; [reflexivity|]. split; [discriminate|]. repeat constructor. Qed.
