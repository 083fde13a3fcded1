(** Model of how columns and managers are set up: the encoder that [Prepare] makes from
    the settings of the manager (/repo/dyscodatacolumn.cc, /repo/dyscoweightcolumn.cc),
    adding columns (/repo/dyscostman.cc), and the manager that dscompress makes
    (/repo/dscompress.cc:15-65). *)
From Flocq Require Import IEEE754.Bits.
From Flocq Require Binary.
From Coq Require Import String Ascii.
From Verif Require Import Base Floats BytePacker File StMan.
From Verif Require Import StochasticEncoder EncoderTables TimeBlockEncoders Block System.
From Verif Require Dscompress.
Local Open Scope N_scope.

(** The functions of the GNU Scientific Library that the tables are made with
    (stochasticencoder.cc:17, 133, 149-165) *)
Record gsl := Gsl {
  gsl_sf_erf : f64 -> f64;
  gsl_cdf_tdist_Pinv : f64 -> f64 -> f64;
  gsl_cdf_gaussian_P : f64 -> f64 -> f64;
  gsl_cdf_gaussian_Pinv : f64 -> f64 -> f64 }.

(** A double and its 64 bits, as the manager keeps them ([studentTNu], [truncation]).
    Simplification: there is one NaN. *)
Definition nan_bits64 : {x : binary64 | Binary.is_nan 53 1024 x = true} :=
  exist _ (Binary.B754_nan 53 1024 false (2 ^ 51) eq_refl) eq_refl.
Definition double_bits (x : f64) : N := Z.to_N (bits_of_b64 (Binary.BSN2B 53 1024 nan_bits64 x)).
Definition double_of (v : N) : f64 := Binary.B2BSN 53 1024 (b64_of_bits (Z.of_N v)).

(** [1 << getBitsPerSymbol()] (an int) *)
Definition quantCount (m : stman) : nat := N.to_nat (2 ^ dataBitCount m).

(** dyscodatacolumn.cc:30-50: the encoder of a data column.  [ea], [da]: the memory of
    its tables before they are filled; [None]: the Gaussian inverse was not found
    within the fuel.  With a distribution other than the four, [_gausEncoder] is null
    and using it is undefined. *)
Definition Prepare_encoder (G : gsl) (fuel : nat) (m : stman) (ea da : list f32) : option (res encoder) :=
  if 31 <=? dataBitCount m then Some UB else
  let q := quantCount m in
  if distribution m =? 0 then gaussian_encoder (gsl_sf_erf G) fuel q (of32 1) ea da
  else if distribution m =? 1 then Some (uniform_encoder q (of32 1) ea da)
  else if distribution m =? 2 then Some (student_encoder (gsl_cdf_tdist_Pinv G) q (double_of (studentTNu m)) (of64 1) ea da)
  else if distribution m =? 3 then Some (truncated_encoder (gsl_cdf_gaussian_P G) (gsl_cdf_gaussian_Pinv G) q (double_of (truncation m)) (of64 1) ea da)
  else Some UB.

(** dyscodatacolumn.cc:18-28, 70-85: with another normalization [_decoder] is null *)
Definition Prepare_data (m : stman) (e : encoder) (nPol nChan : nat) : option coldef :=
  if normalization m =? 0 then Some (CAF e nPol nChan (dataBitCount m))
  else if normalization m =? 1 then Some (CRF e nPol nChan (dataBitCount m))
  else if normalization m =? 2 then Some (CRow e nPol nChan (dataBitCount m))
  else None.

(** dyscoweightcolumn.cc:5-14 *)
Definition Prepare_weight (m : stman) (nPol nChan : nat) : coldef := CWeight nPol nChan (weightBitCount m).

(** the kind of a data column once it was prepared; before, it has none *)
Definition data_kind (m : stman) : kind := if normalization m =? 0 then KAF else if normalization m =? 1 then KRF else KRow.

(** dyscostman.cc:315-338: makeDirArrColumn, for the right data types;
    [shape]: setShapeColumn.  Nothing else is known of it yet. *)
Definition new_column (m : stman) (n : string) (nPol nChan : N) : column :=
  Column (if String.eqb n "WEIGHT_SPECTRUM" then KWeight else data_kind m) nPol nChan 0 0 0 0.

(** casacore makes the column and calls addColumn (dyscostman.cc:390-397) *)
Definition addColumnMan (m : stman) (c : column) : res stman :=
  if negb (nBlocksInFile m =? 0) then Throw else
  do m' <- prepareMan (set_columns m (columns m ++ [c]));
  Ok (writeHeader m').

(** ** dscompress *)

Definition bytes_of (s : string) : list N := map N_of_ascii (list_ascii_of_string s).

(** dyscodistribution.h, dysconormalization.h: the order of the enumerations *)
Definition distribution_code (d : Dscompress.distribution) : N :=
  match d with Dscompress.Gaussian => 0 | Dscompress.Uniform => 1 | Dscompress.StudentsT => 2 | Dscompress.TruncatedGaussian => 3 end.
Definition normalization_code (n : Dscompress.normalization) : N :=
  match n with Dscompress.AF => 0 | Dscompress.RF => 1 | Dscompress.Row => 2 end.

(** dscompress.cc:35-54 with dyscostman.cc:16-32 and dyscostman.h:72-125; the call in
    347-357 passes 1.0 for [studentsTNu].  Copies of the manager (dyscostman.cc:54-69)
    keep these members. *)
Definition tool_settings (o : Dscompress.options) : stman :=
  StMan 0 0 0 0 0 0 empty_file (bytes_of "DyscoStMan") (Z.to_N (Dscompress.o_bits o)) (Z.to_N (Dscompress.o_weight_bits o))
    (distribution_code (Dscompress.o_distribution o)) (normalization_code (Dscompress.o_normalization o))
    (match Dscompress.o_distribution o with Dscompress.StudentsT => double_bits (of64 1) | _ => double_bits (of64 0) end)
    (match Dscompress.o_distribution o with Dscompress.TruncatedGaussian => double_bits (Dscompress.o_truncation o) | _ => double_bits (dy 5 (-1)) end)
    [].

(** dscompress.cc:56, 63, 347-357, for a table of which no column has a DyscoStMan yet:
    with the first column casacore makes the manager, creates its file and prepares it;
    the others are added to it.  [names] is not empty (dscompress.cc:181). *)
Definition tool_manager (o : Dscompress.options) (nrow nPol nChan : N) (names : list string) : res stman :=
  match names with
  | [] => Throw
  | n :: names' =>
      let m := createMan nrow (tool_settings o) in
      do m1 <- prepareMan (set_columns m [new_column m n nPol nChan]);
      foldM (fun m n => addColumnMan m (new_column m n nPol nChan)) names' m1
  end.
