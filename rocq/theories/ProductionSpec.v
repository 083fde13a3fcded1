(** Specification vocabulary for columns as a program sets them up, and for dscompress. *)
From Coq Require Import Reals String.
From Flocq Require Import Core.
From Verif Require Import Base Floats TimeBlockBuffer BytePacker File StMan StManSpec.
From Verif Require Import BitStream StochasticEncoder EncoderTables NormalSpec TimeBlockEncoders TbeSpec Weights WeightSpec Block BlockSpec Column ColumnSpec StoredColumn System SystemSpec Production.
From Verif Require Dscompress DsSpec.
Local Open Scope N_scope.

(** Prepare makes the encoder [e], whatever the memory of the tables holds *)
Definition encoder_of (G : gsl) (m : stman) (e : encoder) : Prop := exists n, forall fuel ea da,
  (n <= fuel)%nat -> length ea = (quantCount m - 1)%nat -> length da = quantCount m -> Prepare_encoder G fuel m ea da = Some (Ok e).

(** Prepare makes a column [c] of [col] *)
Definition prepared (G : gsl) (m : stman) (col : column) (c : coldef) : Prop :=
  match co_kind col with
  | KWeight => c = Prepare_weight m (N.to_nat (co_nPol col)) (N.to_nat (co_nChan col))
  | _ => exists e, encoder_of G m e /\ Prepare_data m e (N.to_nat (co_nPol col)) (N.to_nat (co_nChan col)) = Some c
  end.
Definition all_prepared (G : gsl) (m : stman) (cfg : nat -> coldef) : Prop :=
  forall i col, nth_error (columns m) i = Some col -> prepared G m col (cfg i).

(** Settings that the software supports, with a library that is accurate for them: [Phi] is
    the normal distribution, [T] (with density [d]) Student's. *)
Definition settings_ok (Phi T d : R -> R) (G : gsl) (m : stman) : Prop :=
  supported (dataBitCount m) /\ supported (weightBitCount m) /\ normalization m < 3 /\ normal_cdf Phi /\
  (distribution m = 0 /\ erf_accurate Phi (gsl_sf_erf G) \/
   distribution m = 1 \/
   distribution m = 2 /\ peaked_cdf T d /\ quantile_accurate T (fun p => gsl_cdf_tdist_Pinv G p (double_of (studentTNu m))) \/
   distribution m = 3 /\ (let t := double_of (truncation m) in
     is_finite t = true /\ (/ 4 <= B2R t)%R /\ is_finite (gsl_cdf_gaussian_P G (Bopp t) (of64 1)) = true /\
     (Rabs (B2R (gsl_cdf_gaussian_P G (Bopp t) (of64 1)) - Phi (- B2R t)) <= bpow radix2 (-52))%R /\
     quantile_accurate Phi (fun p => gsl_cdf_gaussian_Pinv G p (of64 1)))).

(** the quantiles of the distribution that is chosen in [m] (C61) *)
Definition quantiles (Phi T : R -> R) (m : stman) (p z : R) : Prop :=
  (if distribution m =? 0 then exists y, Phi y = p /\ z = sqrt 3 * y
   else if distribution m =? 1 then z = sqrt 3 * (2 * p - 1)
   else if distribution m =? 2 then T z = p
   else let k := Phi (- B2R (double_of (truncation m))) in Phi z = k + p * (1 - 2 * k))%R.

(** the columns of [m] with the encoder [e]; those that [m] does not have do not matter *)
Definition config (m : stman) (e : encoder) (i : nat) : coldef :=
  match nth_error (columns m) i with
  | Some col =>
      let p := N.to_nat (co_nPol col) in let n := N.to_nat (co_nChan col) in
      match co_kind col, Prepare_data m e p n with
      | KWeight, _ | _, None => Prepare_weight m p n
      | _, Some c => c
      end
  | None => Prepare_weight m 1 1
  end.

(** ** dscompress *)

(** the column reads its keys and antennas from this table; rows behind the table have antenna 0 *)
Definition reads_table (T : table) (rows : list Dscompress.ms_row) : Prop :=
  (forall i j x y, nth_error rows i = Some x -> nth_error rows j = Some y ->
    ((t_time T (N.of_nat i) = t_time T (N.of_nat j) /\ t_field T (N.of_nat i) = t_field T (N.of_nat j) /\ t_ddid T (N.of_nat i) = t_ddid T (N.of_nat j)) <-> DsSpec.same_key y x)) /\
  (forall r, t_ants T r = match nth_error rows (N.to_nat r) with Some x => (Z.to_nat (Dscompress.ant1 x), Z.to_nat (Dscompress.ant2 x)) | None => (0, 0)%nat end).

(** A measurement set that can be compressed: accepted by the tool, with more than one time
    block, arrays of one shape ([p] polarizations, [n] channels), weights that are not
    negative, and each column named once.  ([weights] are all zero if there is no weight column.) *)
Record compressible (o : Dscompress.options) (p n : nat) (rows : list Dscompress.ms_row) (cols : Dscompress.columns)
  (flags : list (list bool)) (weights : list (list f32)) : Prop := {
  cp_valid : Dscompress.validate rows = Ok tt;
  cp_blocks : exists r0 rest x, rows = r0 :: rest /\ In x rest /\ ~ DsSpec.same_key r0 x;
  cp_ants : forall r, In r rows -> (0 <= Dscompress.ant1 r < 2 ^ 31 /\ 0 <= Dscompress.ant2 r < 2 ^ 31)%Z;
  cp_dims : (0 < p)%nat /\ (0 < n)%nat;
  cp_names : Dscompress.o_columns o <> [] /\ NoDup (Dscompress.o_columns o) /\ 62 + 24 * N.of_nat (List.length (Dscompress.o_columns o)) < 2 ^ 32;
  cp_table : forall c d, cols c = Some d -> List.length d = List.length rows;
  cp_data : forall c, In c (Dscompress.o_columns o) -> c <> "WEIGHT_SPECTRUM"%string ->
    exists d, cols c = Some d /\ Forall (fun x => List.length x = (p * n)%nat) d;
  cp_flags : List.length flags = List.length rows /\ Forall (fun f => List.length f = (p * n)%nat) flags;
  cp_weights : List.length weights = List.length rows /\ Forall (fun w => List.length w = (p * n)%nat /\ Forall nonneg w) weights }.

(** What the tool has done before it copies the data: the flagged samples are replaced and
    the columns made; [e] is the encoder of the new columns. *)
Definition tool_ready (G : gsl) (o : Dscompress.options) (p n : nat) (rows : list Dscompress.ms_row) (cols : Dscompress.columns) (flags : list (list bool))
  (cols' : Dscompress.columns) (m : stman) (e : encoder) : Prop :=
  Dscompress.flag_columns (Dscompress.o_columns o) cols flags = Ok cols' /\
  tool_manager o (N.of_nat (List.length rows)) (N.of_nat p) (N.of_nat n) (Dscompress.o_columns o) = Ok m /\ encoder_of G m e.

(** the quantiles of the distribution that the options choose (Student's with one degree of freedom) *)
Definition option_quantiles (Phi T : R -> R) (o : Dscompress.options) (p z : R) : Prop :=
  (match Dscompress.o_distribution o with
   | Dscompress.Gaussian => exists y, Phi y = p /\ z = sqrt 3 * y
   | Dscompress.Uniform => z = sqrt 3 * (2 * p - 1)
   | Dscompress.StudentsT => T z = p
   | Dscompress.TruncatedGaussian => let k := Phi (- B2R (Dscompress.o_truncation o)) in Phi z = k + p * (1 - 2 * k)
   end)%R.

(** the column that the options ask for *)
Definition option_column (o : Dscompress.options) (e : encoder) (p n : nat) (c : string) : coldef :=
  let bits := Z.to_N (Dscompress.o_bits o) in
  if String.eqb c "WEIGHT_SPECTRUM" then CWeight p n (Z.to_N (Dscompress.o_weight_bits o))
  else match Dscompress.o_normalization o with
       | Dscompress.AF => CAF e p n bits | Dscompress.RF => CRF e p n bits | Dscompress.Row => CRow e p n bits
       end.

(** a library that is accurate for the options, and bit counts that are supported *)
Definition options_ok (Phi T d : R -> R) (G : gsl) (o : Dscompress.options) : Prop :=
  supported (Z.to_N (Dscompress.o_bits o)) /\ supported (Z.to_N (Dscompress.o_weight_bits o)) /\ normal_cdf Phi /\
  match Dscompress.o_distribution o with
  | Dscompress.Gaussian => erf_accurate Phi (gsl_sf_erf G)
  | Dscompress.Uniform => True
  | Dscompress.StudentsT => peaked_cdf T d /\ quantile_accurate T (fun p => gsl_cdf_tdist_Pinv G p (of64 1))
  | Dscompress.TruncatedGaussian => let t := Dscompress.o_truncation o in
     is_finite t = true /\ (/ 4 <= B2R t)%R /\ is_finite (gsl_cdf_gaussian_P G (Bopp t) (of64 1)) = true /\
     (Rabs (B2R (gsl_cdf_gaussian_P G (Bopp t) (of64 1)) - Phi (- B2R t)) <= bpow radix2 (-52))%R /\
     quantile_accurate Phi (fun p => gsl_cdf_gaussian_Pinv G p (of64 1))
  end.

(** a row with its flagged samples replaced *)
Definition flagged (f : list bool) (d : list cf) : list cf := map (fun x => if fst x : bool then (nan32, nan32) else snd x) (combine f d).

(** visibilities or weights, as the column needs them *)
Definition choose (c : coldef) (vis : list cf) (w : list f32) : list (sample (codec_of c)) :=
  match c return list (sample (codec_of c)) with
  | CRow _ _ _ _ | CRF _ _ _ _ | CAF _ _ _ _ => vis
  | CWeight _ _ _ => w
  end.

(** What the tool puts in row [r] of column [i]: what the old column holds.  [z] is a row
    for other indices, which do not matter. *)
Definition moved (cfg : nat -> coldef) (names : list string) (cols : Dscompress.columns) (weights : list (list f32)) (z : nat)
  (i : nat) (r : N) : list (sample (codec_of (cfg i))) :=
  choose (cfg i) (nth (N.to_nat r) (match cols (nth i names EmptyString) with Some d => d | None => [] end) (repeat (nan32, nan32) z))
    (nth (N.to_nat r) weights (repeat (of32 0) z)).

(** flagged samples are read as NaN *)
Definition flags_kept (c : coldef) (f : list bool) : list (sample (codec_of c)) -> Prop :=
  match c return list (sample (codec_of c)) -> Prop with
  | CRow _ _ _ _ | CRF _ _ _ _ | CAF _ _ _ _ => fun out =>
      forall j, nth_error f j = Some true -> exists v, nth_error out j = Some v /\ is_nan (fst v) = true /\ is_nan (snd v) = true
  | CWeight _ _ _ => fun _ => True
  end.
