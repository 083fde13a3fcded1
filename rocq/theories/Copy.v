(** Model of copying a stored table: casacore's deepCopy makes a manager from the
    specification of the old one (/repo/dyscostman.cc:36-52, 71-152) and puts every row
    that it reads; [Reorder] replaces the table by its copy (/repo/stmanmodifier.h:146-158). *)
From Coq Require Import String Ascii.
From Verif Require Import Base BytePacker File StMan SpecRecord Production.
Local Open Scope N_scope.

(** dyscodistribution.h, dysconormalization.h: the enumerations in the order of their
    numbers; other numbers are none of them *)
Definition dist_of (d : N) : option dist :=
  if d =? 0 then Some Gaussian else if d =? 1 then Some Uniform else if d =? 2 then Some StudentsT else if d =? 3 then Some TruncatedGaussian else None.
Definition norm_of (n : N) : option norm := if n =? 0 then Some kAF else if n =? 1 then Some kRF else if n =? 2 then Some kRow else None.
Definition dist_code (d : dist) : N := match d with Gaussian => 0 | Uniform => 1 | StudentsT => 2 | TruncatedGaussian => 3 end.
Definition norm_code (n : norm) : N := match n with kAF => 0 | kRF => 1 | kRow => 2 end.

(** the settings of a manager; with other numbers the specification has an empty string
    (dyscostman.cc:123-150), which setFromSpec rejects *)
Definition settings_of (m : stman) : option settings :=
  match dist_of (distribution m), norm_of (normalization m) with
  | Some d, Some n => Some (Settings (dataBitCount m) (weightBitCount m) d n (studentTNu m) (truncation m))
  | _, _ => None
  end.

(** dyscostman.cc:34-52: the settings before setFromSpec, and a manager with its settings.
    Simplification: [_staticSeed] is not modelled (the copy always has [false]). *)
Definition default_settings : settings := Settings 0 0 Gaussian kAF 0 0.
Definition from_settings (nm : list N) (s : settings) : stman :=
  StMan 0 0 0 0 0 0 empty_file nm (s_dataBits s) (s_weightBits s) (dist_code (s_dist s)) (norm_code (s_norm s)) (s_nu s) (s_truncation s) [].

(** makeDirArrColumn and setShapeColumn for the copy of a column: weights are known by the
    name of the column, which the copy keeps *)
Definition copy_column (m : stman) (c : column) : column :=
  Column (match co_kind c with KWeight => KWeight | _ => data_kind m end) (co_nPol c) (co_nChan c) 0 0 0 0.

(** casacore: makeObject with the name and the specification of the old manager, the
    columns, create, prepare.  [m]: the old manager, [nrow]: rows of the table. *)
Definition copyMan (nrow : N) (m : stman) : res stman :=
  match settings_of m with
  | None => Throw
  | Some s =>
    do s' <- setFromSpec default_settings (dataManagerSpec s);
    let m' := createMan nrow (from_settings (name m) s') in
    prepareMan (set_columns m' (map (copy_column m') (columns m)))
  end.

(** ** Reorder *)

(** stmanmodifier.h:149-151 *)
Fixpoint strip (r : list ascii) : res (list ascii) :=
  match r with
  | [] => UB
  | a :: r' => if Ascii.eqb a "/" then strip r' else Ok r
  end.
(** [*rbegin()] of an empty string is undefined *)
Definition temp_name (loc : string) : res string :=
  do r <- strip (rev (list_ascii_of_string loc));
  Ok (string_of_list_ascii (rev r) ++ "temp")%string.

(** stmanmodifier.h:146-158.  [files]: the tables by name; [copy]: deepCopy, which
    overwrites a table that has the temporary name (Table::New), as does rename.
    Simplification: a copy that fails leaves nothing under the temporary name; names that
    differ only in trailing slashes count as different names. *)
Definition Reorder {A} (copy : A -> res A) (files : string -> option A) (loc : string) : res (string -> option A) :=
  match files loc with
  | None => Throw
  | Some t =>
    do tmp <- temp_name loc;
    do t' <- copy t;
    let f1 := fun x => if String.eqb x tmp then Some t' else files x in
    let f2 := fun x => if String.eqb x loc then None else f1 x in
    Ok (fun x => if String.eqb x loc then f2 tmp else if String.eqb x tmp then None else f2 x)
  end.
