(** Model of the checks and the flag handling of the [dscompress] tool
    (/repo/dscompress.cc).  The columns of the measurement set are lists with
    one entry per table row. *)
From Coq Require Export String Ascii.
From Verif Require Import Base Floats.

(** One row of the main table, dscompress.cc:263-267.  TIME is a double,
    the others are ints. *)
Record ms_row := MsRow { ant1 : Z; ant2 : Z; field : Z; ddid : Z; time : f64 }.

(** dscompress.cc:277-278: the test for a new time block, [!=] on doubles is
    true when one of them is NaN *)
Definition new_block (last r : ms_row) : bool :=
  negb (Beqb (time r) (time last)) || negb (field r =? field last)%Z || negb (ddid r =? ddid last)%Z.

(** Variables of the loop, dscompress.cc:269-272.  The three "last" variables
    are the fields of one row. *)
Record vstate := VState { lastRow : ms_row; antennasInBlock : list (Z * Z); blockOffset : nat; blockNumber : nat }.

(** dscompress.cc:273-319, one pass through the loop; the exceptions carry only
    a message, which is not modelled *)
Definition check_row (s : vstate) (r : ms_row) : res vstate :=
  do s1 <- (if new_block (lastRow s) r then
              if (blockOffset s =? List.length (antennasInBlock s))%nat
              then Ok (VState (lastRow s) (antennasInBlock s) 0 (S (blockNumber s)))
              else Throw
            else Ok s);
  do s2 <- (if (blockNumber s1 =? 0)%nat
            then Ok (VState (lastRow s1) (antennasInBlock s1 ++ [(ant1 r, ant2 r)]) (blockOffset s1) (blockNumber s1))
            else do a <- rd (antennasInBlock s1) (blockOffset s1);
                 if negb (fst a =? ant1 r)%Z || negb (snd a =? ant2 r)%Z then Throw else Ok s1);
  Ok (VState r (antennasInBlock s2) (S (blockOffset s2)) (blockNumber s2)).

(** dscompress.cc:258-327.  Reading row 0 of a table without rows (269-270)
    throws in casacore. *)
Definition validate (rows : list ms_row) : res unit :=
  match rows with
  | [] => Throw
  | r0 :: _ =>
      do s <- foldM check_row rows (VState r0 [] 0 0);
      if (blockOffset s =? List.length (antennasInBlock s))%nat then Ok tt else Throw
  end.

(** ** Replacing flagged samples, dscompress.cc:231-255 *)

(** std::complex<float> *)
Definition cf32 := (f32 * f32)%type.
Definition nan_sample : cf32 := (nan32, nan32).

(** dscompress.cc:240-251: [f] is incremented together with [d], and read
    before the end of the flag array is checked (it never is).  The second
    component is [isChanged]. *)
Fixpoint flag_samples (d : list cf32) (f : list bool) : res (list cf32 * bool) :=
  match d with
  | [] => Ok ([], false)
  | x :: d' =>
      match f with
      | [] => UB
      | b :: f' =>
          do r <- flag_samples d' f';
          let (d2, ch) := r in
          Ok ((if b then nan_sample else x) :: d2, b || ch)
      end
  end.

(** The arrays have the shape of row 0 (dscompress.cc:235-236) and
    ArrayColumn::get throws for a row of another shape; shapes are modelled by
    their number of elements *)
Definition flag_row (nd nf : nat) (d : list cf32) (f : list bool) : res (list cf32) :=
  if negb (List.length d =? nd)%nat || negb (List.length f =? nf)%nat then Throw else
  do r <- flag_samples d f;
  let (d', isChanged) := r in Ok (if isChanged then d' else d).

Fixpoint flag_rows (nd nf : nat) (data : list (list cf32)) (flags : list (list bool)) : res (list (list cf32)) :=
  match data, flags with
  | d :: data', f :: flags' =>
      do d' <- flag_row nd nf d f;
      do r <- flag_rows nd nf data' flags';
      Ok (d' :: r)
  | _, _ => Ok []
  end.

(** one column (dscompress.cc:232-254); [shape(0)] of an empty column throws *)
Definition flag_column (data : list (list cf32)) (flags : list (list bool)) : res (list (list cf32)) :=
  match data, flags with
  | d0 :: _, f0 :: _ => flag_rows (List.length d0) (List.length f0) data flags
  | _, _ => Throw
  end.

(** The complex columns of the table by name.  [None]: no such column, the
    ArrayColumn constructor throws. *)
Definition columns := string -> option (list (list cf32)).
Definition set_column (cols : columns) (n : string) (d : list (list cf32)) : columns :=
  fun m => if String.eqb m n then Some d else cols m.

(** dscompress.cc:231-255 *)
Fixpoint flag_columns (names : list string) (cols : columns) (flags : list (list bool)) : res columns :=
  match names with
  | [] => Ok cols
  | n :: names' =>
      do cols' <- (if String.eqb n "WEIGHT_SPECTRUM" then Ok cols
                   else match cols n with
                        | None => Throw
                        | Some d => do d' <- flag_column d flags; Ok (set_column cols n d')
                        end);
      flag_columns names' cols' flags
  end.

(** ** Command line, dscompress.cc:135-182 *)
Inductive distribution := Gaussian | Uniform | StudentsT | TruncatedGaussian.
Inductive normalization := AF | RF | Row.
Record options := Options {
  o_distribution : distribution; o_normalization : normalization; o_reorder : bool;
  o_bits : Z; o_weight_bits : Z; o_truncation : f64; o_static : bool; o_columns : list string }.

(** dscompress.cc:135-142 *)
Definition defaults : options := Options TruncatedGaussian AF false 8 12 (dy 5 (-1)) false [].

(** [argv[argi][0] == '-'] and [argv[argi] + 1] *)
Definition is_option (a : string) : option string :=
  match a with String c p => if Ascii.eqb c "-"%char then Some p else None | EmptyString => None end.

Section Parse.
(** C library functions, arbitrary *)
Context (atoi : string -> Z) (atof : string -> f64).

(** dscompress.cc:144-179.  [args] are the arguments from [argi] on; after the
    last one [argv[argc]] is a null pointer, using it is UB.  [unsigned] is
    modelled by reduction modulo 2^32. *)
Fixpoint parse (fuel : nat) (args : list string) (o : options) : res (options * list string) :=
  match fuel with
  | O => UB
  | S fuel' =>
  match args with
  | [] => Ok (o, args)
  | a :: rest =>
    match is_option a with
    | None => Ok (o, args)
    | Some p =>
      if String.eqb p "data-bit-rate" then
        match rest with [] => UB | v :: rest' =>
          parse fuel' rest' (Options (o_distribution o) (o_normalization o) (o_reorder o) (atoi v mod 2 ^ 32) (o_weight_bits o) (o_truncation o) (o_static o) (o_columns o)) end
      else if String.eqb p "weight-bit-rate" then
        match rest with [] => UB | v :: rest' =>
          parse fuel' rest' (Options (o_distribution o) (o_normalization o) (o_reorder o) (o_bits o) (atoi v mod 2 ^ 32) (o_truncation o) (o_static o) (o_columns o)) end
      else if String.eqb p "reorder" then
        parse fuel' rest (Options (o_distribution o) (o_normalization o) true (o_bits o) (o_weight_bits o) (o_truncation o) (o_static o) (o_columns o))
      else if String.eqb p "gaussian" then
        parse fuel' rest (Options Gaussian (o_normalization o) (o_reorder o) (o_bits o) (o_weight_bits o) (o_truncation o) (o_static o) (o_columns o))
      else if String.eqb p "uniform" then
        parse fuel' rest (Options Uniform (o_normalization o) (o_reorder o) (o_bits o) (o_weight_bits o) (o_truncation o) (o_static o) (o_columns o))
      else if String.eqb p "studentt" then
        parse fuel' rest (Options StudentsT (o_normalization o) (o_reorder o) (o_bits o) (o_weight_bits o) (o_truncation o) (o_static o) (o_columns o))
      else if String.eqb p "truncgaus" then
        match rest with [] => UB | v :: rest' =>
          parse fuel' rest' (Options TruncatedGaussian (o_normalization o) (o_reorder o) (o_bits o) (o_weight_bits o) (atof v) (o_static o) (o_columns o)) end
      else if String.eqb p "column" then
        match rest with [] => UB | v :: rest' =>
          parse fuel' rest' (Options (o_distribution o) (o_normalization o) (o_reorder o) (o_bits o) (o_weight_bits o) (o_truncation o) (o_static o) (o_columns o ++ [v])) end
      else if String.eqb p "rfnormalization" then
        parse fuel' rest (Options (o_distribution o) RF (o_reorder o) (o_bits o) (o_weight_bits o) (o_truncation o) (o_static o) (o_columns o))
      else if String.eqb p "afnormalization" then
        parse fuel' rest (Options (o_distribution o) AF (o_reorder o) (o_bits o) (o_weight_bits o) (o_truncation o) (o_static o) (o_columns o))
      else if String.eqb p "rownormalization" then
        parse fuel' rest (Options (o_distribution o) Row (o_reorder o) (o_bits o) (o_weight_bits o) (o_truncation o) (o_static o) (o_columns o))
      else if String.eqb p "static-seed" then
        parse fuel' rest (Options (o_distribution o) (o_normalization o) (o_reorder o) (o_bits o) (o_weight_bits o) (o_truncation o) true (o_columns o))
      else Throw
    end
  end
  end.

(** dscompress.cc:181-182.  One argument is consumed per round, so the number
    of arguments plus one bounds the rounds. *)
Definition parse_line (args : list string) : res (options * string) :=
  do r <- parse (S (List.length args)) args defaults;
  let (o, rest) := r in
  match rest with
  | [] => UB
  | path :: _ =>
      Ok (Options (o_distribution o) (o_normalization o) (o_reorder o) (o_bits o) (o_weight_bits o) (o_truncation o) (o_static o)
            (match o_columns o with [] => ["DATA"%string] | l => l end), path)
  end.
(** dscompress.cc:75-133: [None] when there are no arguments; how to use the tool is printed *)
Definition command_line (args : list string) : res (option (options * string)) :=
  match args with [] => Ok None | _ => do r <- parse_line args; Ok (Some r) end.
End Parse.

(** ** Replacing the storage manager, stmanmodifier.h *)

(** A column of the table: its data manager type, its shape and, per row, its
    contents ([None] = not yet written).  [V] is the type of one row's array,
    [vshape] its shape.  Whether values survive their storage manager is the
    subject of the other properties, so what a manager makes of a value is an
    arbitrary function [store]. *)
Record column (V : Type) := Col { c_manager : string; c_shape : list nat; c_rows : list (option V) }.
Arguments Col {V}. Arguments c_manager {V}. Arguments c_shape {V}. Arguments c_rows {V}.
Definition table (V : Type) := string -> option (column V).
Definition upd_table {V} (t : table V) (n : string) (c : option (column V)) : table V :=
  fun m => if String.eqb m n then c else t m.

Section Modify.
Context {V : Type} (vshape : V -> list nat) (store : string -> V -> V) (nrow : nat).
(** [removed rows]: what the remaining columns of a DyscoStMan hold after another column of it
    was removed (dyscostman.cc:399-411), when before they held [rows].  This is not the same:
    C32, C56_weights_shifted.
    [committed]: the table already has a DyscoStMan with blocks in its file. *)
Context (removed : list (option V) -> list (option V)) (committed : bool).

(** casacore: Table::renameColumn(newName, oldName) throws when the new name
    exists or the old one does not *)
Definition renameColumn (t : table V) (new old : string) : res (table V) :=
  match t old, t new with
  | Some c, None => Ok (upd_table (upd_table t old None) new (Some c))
  | _, _ => Throw
  end.
(** casacore: Table::addColumn throws when the name exists *)
Definition addColumn (t : table V) (n mgr : string) (shape : list nat) : res (table V) :=
  match t n with None => Ok (upd_table t n (Some (Col mgr shape (repeat None nrow)))) | Some _ => Throw end.
(** casacore: Table::removeColumn; calls removeColumn of the storage manager as long as it has
    other columns.  All columns of type DyscoStMan are in one manager, as dscompress.cc:29-64
    makes them. *)
Definition is_dysco (c : column V) : bool := String.eqb (c_manager c) "DyscoStMan".
Definition removeColumn (t : table V) (n : string) : res (table V) :=
  match t n with
  | Some c =>
      Ok (upd_table (if is_dysco c then fun m => match t m with Some c' => Some (if is_dysco c' then Col (c_manager c') (c_shape c') (removed (c_rows c')) else c') | None => None end else t) n None)
  | None => Throw
  end.

(** stmanmodifier.h:60, 104, 126 *)
Definition temp_name (n : string) : string := ("TEMP_" ++ n)%string.

(** casacore: [oldColumn.shape(0)] throws for a cell without contents *)
Definition shape0 (rows : list (option V)) : res (list nat) :=
  match rows with Some v :: _ => Ok (vshape v) | _ => Throw end.

(** stmanmodifier.h:92-114; the shape is an output parameter that is only set
    when the column is replaced *)
Definition PrepareReplacingColumn (t : table V) (n newMgr : string) (shape : list nat) : res (table V * bool * list nat) :=
  match t n with
  | None => Throw
  | Some c =>
      if String.eqb (c_manager c) newMgr then Ok (t, false, shape) else
      do t' <- renameColumn t (temp_name n) n;
      do sh <- shape0 (c_rows c);
      Ok (t', true, sh)
  end.

(** stmanmodifier.h:49-79; [defaultMgr] is casacore's default storage manager *)
Definition InitColumnWithDefaultStMan (defaultMgr : string) (t : table V) (n : string) : res (table V * bool) :=
  match t n with
  | None => Throw
  | Some c =>
      if String.eqb (c_manager c) "DyscoStMan" then
        do t' <- renameColumn t (temp_name n) n;
        do sh <- shape0 (c_rows c);
        do t2 <- addColumn t' n defaultMgr sh;
        Ok (t2, true)
      else Ok (t, false)
  end.

(** stmanmodifier.h:163-171: get throws when a row has no contents, put into a
    column of fixed shape when the shapes differ *)
Fixpoint copyValues (mgr : string) (shape : list nat) (rows : list (option V)) : res (list (option V)) :=
  match rows with
  | [] => Ok []
  | None :: _ => Throw
  | Some v :: rows' =>
      if list_eq_dec Nat.eq_dec (vshape v) shape then
        do r <- copyValues mgr shape rows'; Ok (Some (store mgr v) :: r)
      else Throw
  end.

(** stmanmodifier.h:123-135 *)
Definition MoveColumnData (t : table V) (n : string) : res (table V) :=
  match t (temp_name n), t n with
  | Some old, Some new =>
      do rows <- copyValues (c_manager new) (c_shape new) (c_rows old);
      removeColumn (upd_table t n (Some (Col (c_manager new) (c_shape new) rows))) (temp_name n)
  | _, _ => Throw
  end.

(** dscompress.cc:334-345, with the flag [isDataReplaced] *)
Fixpoint prepare_all (names : list string) (t : table V) (replaced : bool) (shape : list nat) : res (table V * bool * list nat) :=
  match names with
  | [] => Ok (t, replaced, shape)
  | n :: names' =>
      do r <- PrepareReplacingColumn t n "DyscoStMan" shape;
      let '(t', b, sh) := r in prepare_all names' t' (b || replaced) sh
  end.
(** dscompress.cc:348-357 and createDyscoStManColumn, 15-65: with or without an
    existing manager a column of manager type DyscoStMan is added.  A DyscoStMan with data
    does not accept columns (dyscostman.cc:390-397).  casacore finds that the name exists
    before it calls the manager; either way an exception is thrown. *)
Definition create_all (names : list string) (shape : list nat) (t : table V) : res (table V) :=
  foldM (fun t n => if committed then Throw else addColumn t n "DyscoStMan" shape) names t.
(** dscompress.cc:358-363 *)
Definition move_all (names : list string) (t : table V) : res (table V) := foldM MoveColumnData names t.
(** dscompress.cc:332-367.  Reorder (a deep copy) is not modelled. *)
Definition replace_columns (names : list string) (t : table V) : res (table V) :=
  do r <- prepare_all names t false [];
  let '(t1, replaced, shape) := r in
  if replaced then do t2 <- create_all names shape t1; move_all names t2 else Ok t1.

(** decompress.cc:15-22.  Reorder is not modelled. *)
Definition decompress (defaultMgr : string) (t : table V) : res (table V) :=
  do r1 <- InitColumnWithDefaultStMan defaultMgr t "DATA"; let (t1, b1) := r1 in
  do r2 <- InitColumnWithDefaultStMan defaultMgr t1 "WEIGHT_SPECTRUM"; let (t2, b2) := r2 in
  do t3 <- (if b1 then MoveColumnData t2 "DATA" else Ok t2);
  (if b2 then MoveColumnData t3 "WEIGHT_SPECTRUM" else Ok t3).
End Modify.
