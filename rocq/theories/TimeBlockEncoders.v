(** Model of the three time block encoders (/repo/rowtimeblockencoder.cc,
    rftimeblockencoder.cc, aftimeblockencoder.cc, timeblockencoder.h).

    Arithmetic is binary64 and binary32 as in the code.  Buffers given by the
    caller are lists; an index outside is undefined behaviour.  A conversion from
    double to float outside the range of float gives an infinity (IEEE 754).
    The random generator is a function: [f k] is the k-th dither value drawn; the
    value for symbol [k] of a block is the k-th (rowtimeblockencoder.cc:66-69).
    [size_t] products do not wrap. *)
From Verif Require Import Base Floats TimeBlockBuffer StochasticEncoder.

Definition cf : Type := f32 * f32.
Definition cd : Type := f64 * f64.

(** std::complex<double>(std::complex<float>), timeblockbuffer.h:61-73 *)
Definition widen (v : cf) : cd := (to64 (fst v), to64 (snd v)).
(** complex times and divided by double are component-wise *)
Definition cmul (v : cd) (f : f64) : cd := (mul64 (fst v) f, mul64 (snd v) f).
Definition cdiv (v : cd) (f : f64) : cd := (div64 (fst v) f, div64 (snd v) f).

(** std::max, std::min *)
Definition std_max (a b : f64) : f64 := if Bltb a b then b else a.
Definition std_min (a b : f64) : f64 := if Bltb b a then b else a.

Definition zero64 : f64 := B754_zero false.
Definition one64 : f64 := of64 1.
(** [x == 0.0] *)
Definition is0 (x : f64) : bool := Beqb x zero64.

(** rowtimeblockencoder.cc:55, rftimeblockencoder.cc:28, 54 *)
Definition component (v : cd) : f64 := std_max (Babs (fst v)) (Babs (snd v)).

(** [row.visibilities[i] = g(row.visibilities[i])] *)
Definition upd_vis {A} (r : drow A) (i : nat) (g : A -> A) : res (drow A) :=
  do v <- rd (visibilities r) i;
  do l <- wr (visibilities r) i (g v);
  Ok (DRow (antenna1 r) (antenna2 r) l).

(** rowtimeblockencoder.cc:66-75 and the same lines in the other encoders *)
Definition enc_value (e : encoder) (d : option (nat -> Z)) (k : nat) (x : f64) : res nat :=
  match d with
  | Some f => EncodeWithDithering e (to32 x) (f k)
  | None => Encode e (to32 x)
  end.

(** rowtimeblockencoder.cc:63-78, rftimeblockencoder.cc:89-104,
    aftimeblockencoder.cc:313-328; [n] is visPerRow, [ptr] symbolBufferPtr - symbolBuffer *)
Definition write_row (e : encoder) (n : nat) (d : option (nat -> Z)) (ptr : nat) (r : drow cd) (sym : list nat) : res (list nat) :=
  foldM (fun sym i =>
    do v <- rd (visibilities r) i;
    do s <- enc_value e d (ptr + i * 2) (fst v);
    do sym <- wr sym (ptr + i * 2) s;
    do s <- enc_value e d (ptr + i * 2 + 1) (snd v);
    wr sym (ptr + i * 2 + 1) s) (seq 0 n) sym.
Definition write_symbols (e : encoder) (n : nat) (d : option (nat -> Z)) (data : list (drow cd)) (sym : list nat) : res (list nat) :=
  do st <- foldM (fun '(sym, ptr) r => do sym <- write_row e n d ptr r sym; Ok (sym, ptr + n * 2)) data (sym, 0);
  Ok (fst st).

(** SymbolCount, SymbolsPerRow: the same in the three headers
    (rowtimeblockencoder.h:44-55, rftimeblockencoder.h:44-55, aftimeblockencoder.h:44-55) *)
Definition SymbolCount (nRow nPol nChan : nat) : nat := nRow * nChan * nPol * 2.
Definition SymbolsPerRow (nPol nChan : nat) : nat := nChan * nPol * 2.

(** rowtimeblockencoder.cc:27-35, rftimeblockencoder.cc:137-145,
    aftimeblockencoder.cc:428-438: the visibilities of the row; [factor i] is
    the factor of sample [i] *)
Definition decode_row (e : encoder) (n per : nat) (symbols : list nat) (blockRow : nat) (factor : nat -> res f64) : res (list cf) :=
  mapM (fun i =>
    do f <- factor i;
    do s <- rd symbols (blockRow * per + i * 2);
    do re <- Decode e s;
    do s <- rd symbols (blockRow * per + i * 2 + 1);
    do im <- Decode e s;
    Ok (to32 (mul64 (to64 re) f), to32 (mul64 (to64 im) f))) (seq 0 n).

(** ** RowTimeBlockEncoder *)

(** rowtimeblockencoder.cc:52-57 *)
Definition row_max (n : nat) (vis : list cd) : res f64 :=
  foldM (fun m i => do v <- rd vis i; let c := component v in Ok (if is_finite c then std_max m c else m)) (seq 0 n) zero64.

(** rowtimeblockencoder.cc:58 *)
Definition row_factor (L m : f64) : f64 := if is0 m then one64 else div64 L m.

(** rowtimeblockencoder.cc:51-60 *)
Definition row_normalize (n : nat) (L : f64) (st : list (drow cd) * list f32) (r : nat) : res (list (drow cd) * list f32) :=
  let (data, meta) := st in
  do row <- rd data r;
  do m <- row_max n (visibilities row);
  do row <- foldM (fun row i => upd_vis row i (fun v => cmul v (row_factor L m))) (seq 0 n) row;
  do data <- wr data r row;
  do meta <- wr meta r (to32 (div64 m L));
  Ok (data, meta).

(** rowtimeblockencoder.cc:38-79; returns metaBuffer and symbolBuffer *)
Definition row_encode (e : encoder) (nPol nChan : nat) (d : option (nat -> Z)) (b : tbb cf) (meta : list f32) (sym : list nat)
  : res (list f32 * list nat) :=
  let data := ConvertVector widen b in
  let n := nPol * nChan in
  do L <- MaxQuantity e;
  do st <- foldM (row_normalize n (to64 L)) (seq 0 (length data)) (data, meta);
  do sym <- write_symbols e n d (fst st) sym;
  Ok (snd st, sym).

(** rowtimeblockencoder.h:57-61 *)
Definition row_MetaDataCount (nRow nPol nChan nAnt : nat) : nat := nRow.

(** rowtimeblockencoder.cc:12-15: assign from [nRow] floats *)
Definition row_init (meta : list f32) (nRow : nat) : res (list f64) :=
  do l <- rds meta 0 nRow; Ok (map to64 l).

(** rowtimeblockencoder.cc:17-36 *)
Definition row_decode (e : encoder) (nPol nChan : nat) (rowFactors : list f64) (symbols : list nat) (blockRow : nat) : res (list cf) :=
  decode_row e (nPol * nChan) (SymbolsPerRow nPol nChan) symbols blockRow (fun _ => rd rowFactors blockRow).

(** ** RFTimeBlockEncoder *)

(** rftimeblockencoder.cc:25-31 *)
Definition rf_row_max (nPol nChan pol : nat) (vis : list cd) : res f64 :=
  foldM (fun m ch => do v <- rd vis (ch * nPol + pol); let c := component v in Ok (if is_finite c then std_max m c else m))
    (seq 0 nChan) zero64.

(** rftimeblockencoder.cc:24-41 *)
Definition rf_row_pol (nPol nChan : nat) (L : f64) (r : nat) (st : drow cd * list f32) (pol : nat) : res (drow cd * list f32) :=
  let (row, meta) := st in
  do m <- rf_row_max nPol nChan pol (visibilities row);
  do row <- foldM (fun row ch => upd_vis row (ch * nPol + pol) (fun v => cmul v (row_factor L m))) (seq 0 nChan) row;
  do meta <- wr meta (nPol * nChan + r * nPol + pol) (to32 (if is0 L then one64 else div64 m L));
  Ok (row, meta).

(** rftimeblockencoder.cc:16-43 *)
Definition rf_rows (nPol nChan : nat) (L : f64) (data : list (drow cd)) (meta : list f32) : res (list (drow cd) * list f32) :=
  foldM (fun '(data, meta) r =>
    do row <- rd data r;
    do (row, meta) <- foldM (rf_row_pol nPol nChan L r) (seq 0 nPol) (row, meta);
    do data <- wr data r row;
    Ok (data, meta)) (seq 0 (length data)) (data, meta).

(** rftimeblockencoder.cc:51-57 *)
Definition channel_max (i : nat) (data : list (drow cd)) : res f64 :=
  foldM (fun m r => do v <- rd (visibilities r) i; let c := component v in Ok (if is_finite c && Bltb m c then c else m)) data zero64.

(** rftimeblockencoder.cc:58-61 *)
Definition channel_factor (L m : f64) : f64 := if is0 L || is0 m then one64 else div64 L m.

(** rftimeblockencoder.cc:45-67 *)
Definition rf_channels (n : nat) (L : f64) (data : list (drow cd)) (meta : list f32) : res (list (drow cd) * list f32) :=
  foldM (fun '(data, meta) i =>
    do m <- channel_max i data;
    let factor := channel_factor L m in
    do meta <- wr meta i (to32 (div64 one64 factor));
    do data <- mapM (fun r => upd_vis r i (fun v => cmul v factor)) data;
    Ok (data, meta)) (seq 0 n) (data, meta).

(** rftimeblockencoder.cc:69-105 *)
Definition rf_encode (e : encoder) (nPol nChan : nat) (d : option (nat -> Z)) (b : tbb cf) (meta : list f32) (sym : list nat)
  : res (list f32 * list nat) :=
  do L <- MaxQuantity e;
  do (data, meta) <- rf_rows nPol nChan (to64 L) (ConvertVector widen b) meta;
  do (data, meta) <- rf_channels (nPol * nChan) (to64 L) data meta;
  do sym <- write_symbols e (nPol * nChan) d data sym;
  Ok (meta, sym).

(** rftimeblockencoder.h:57-60 *)
Definition rf_MetaDataCount (nRow nPol nChan nAnt : nat) : nat := nPol * (nChan + nRow).

(** rftimeblockencoder.cc:118-123: _channelFactors, _rowFactors *)
Definition rf_init (nPol nChan : nat) (meta : list f32) (nRow : nat) : res (list f64 * list f64) :=
  do c <- rds meta 0 (nPol * nChan);
  do r <- rds meta (nPol * nChan) (nPol * nRow);
  Ok (map to64 c, map to64 r).

(** rftimeblockencoder.cc:125-146; [i % _nPol] is only reached when nPol > 0 *)
Definition rf_decode (e : encoder) (nPol nChan : nat) (factors : list f64 * list f64) (symbols : list nat) (blockRow : nat) : res (list cf) :=
  decode_row e (nPol * nChan) (SymbolsPerRow nPol nChan) symbols blockRow
    (fun i => do c <- rd (fst factors) i; do r <- rd (snd factors) (blockRow * nPol + i mod nPol); Ok (mul64 c r)).

(** ** AFTimeBlockEncoder *)

(** timeblockencoder.h:12-32 *)
Record RMSMeasurement := Meas { count : Z; value : f64 }.
Definition no_meas : RMSMeasurement := Meas 0 zero64.
Definition Include (m : RMSMeasurement) (v : cd) : RMSMeasurement :=
  if is_finite (fst v) && is_finite (snd v)
  then Meas (count m + 1) (add64 (value m) (add64 (mul64 (fst v) (fst v)) (mul64 (snd v) (snd v))))
  else m.
Definition RMS (m : RMSMeasurement) : f64 := sqrt64 (div64 (value m) (of64 (count m * 2))).

(** [meas[i].Include(v)] *)
Definition include_at (l : list RMSMeasurement) (i : nat) (v : cd) : res (list RMSMeasurement) :=
  do m <- rd l i; wr l i (Include m v).

(** aftimeblockencoder.cc:276-281 *)
Definition channel_meas (n : nat) (data : list (drow cd)) : res (list RMSMeasurement) :=
  foldM (fun l r => foldM (fun l i => do v <- rd (visibilities r) i; include_at l i v) (seq 0 n) l) data (repeat no_meas n).

(** aftimeblockencoder.cc:282-290 *)
Definition af_channels (n : nat) (meas : list RMSMeasurement) (data : list (drow cd)) (meta : list f32) : res (list (drow cd) * list f32) :=
  foldM (fun '(data, meta) r =>
    do row <- rd data r;
    do (row, meta) <- foldM (fun '(row, meta) i =>
      do m <- rd meas i;
      let rms := RMS m in
      do row <- (if is0 rms then Ok row else upd_vis row i (fun v => cdiv v rms));
      do meta <- wr meta i (to32 rms);
      Ok (row, meta)) (seq 0 n) (row, meta);
    do data <- wr data r row;
    Ok (data, meta)) (seq 0 (length data)) (data, meta).

(** double literals 0.8, 0.2, 1e-5, 1e-6, 1.01, 1.001 *)
Definition lit_0_8 : f64 := dy 3602879701896397 (-52).
Definition lit_0_2 : f64 := dy 3602879701896397 (-54).
Definition lit_1e_5 : f64 := dy 5902958103587057 (-69).
Definition lit_1e_6 : f64 := dy 4722366482869645 (-72).
Definition lit_1_01 : f64 := dy 4548635623644201 (-52).
Definition lit_1_001 : f64 := dy 2254051613498933 (-51).

(** aftimeblockencoder.cc:342-351 *)
Definition antenna_meas (nPol nChan pol nAnt : nat) (data : list (drow cd)) : res (list RMSMeasurement) :=
  foldM (fun l r =>
    let a1 := antenna1 r in let a2 := antenna2 r in
    if (a1 =? a2)%nat then Ok l else
    let index := (Nat.min a1 a2 * nAnt + Nat.max a1 a2)%nat in
    foldM (fun l ch => do v <- rd (visibilities r) (ch * nPol + pol); include_at l index v) (seq 0 nChan) l)
  data (repeat no_meas (nAnt * nAnt)).

(** aftimeblockencoder.cc:353-359: [matrix[i * antennaCount + j]], symmetric,
    here computed when it is read *)
Definition matrix (nAnt : nat) (meas : list RMSMeasurement) (i j : nat) : res f64 :=
  do m <- rd meas (Nat.min i j * nAnt + Nat.max i j); Ok (RMS m).

(** aftimeblockencoder.cc:368-384 *)
Definition next_rms (nAnt : nat) (meas : list RMSMeasurement) (rms : list f64) (i : nat) : res f64 :=
  do (next, weightSum) <- foldM (fun '(next, weightSum) j =>
    do w <- rd rms j;
    if negb (i =? j)%nat && negb (is0 w) then
      do x <- matrix nAnt meas i j;
      Ok (if is_finite x then (add64 next x, add64 weightSum w) else (next, weightSum))
    else Ok (next, weightSum)) (seq 0 nAnt) (zero64, zero64);
  Ok (if is0 weightSum then zero64 else div64 next weightSum).

(** aftimeblockencoder.cc:366-396: one iteration; returns the precision too *)
Definition rms_iteration (nAnt : nat) (meas : list RMSMeasurement) (rms : list f64) : res (list f64 * f64) :=
  do next <- mapM (next_rms nAnt meas rms) (seq 0 nAnt);
  let rms := map (fun '(x, old) => add64 (mul64 x lit_0_8) (mul64 old lit_0_2)) (combine next rms) in
  let maxVal := fold_left (fun m x => std_max x m) rms zero64 in
  let rms := map (fun x => if Bltb x (mul64 maxVal lit_1e_5) then zero64 else x) rms in
  let precision := fold_left (fun p '(x, y) => std_max p (div64 (Babs (sub64 x y)) maxVal)) (combine rms next) zero64 in
  Ok (rms, precision).

(** aftimeblockencoder.cc:364-397: [todo] is 100 - iteration *)
Fixpoint rms_loop (todo nAnt : nat) (meas : list RMSMeasurement) (rms : list f64) (precision : f64) : res (list f64) :=
  match todo with
  | O => Ok rms
  | S todo' =>
      if Bltb lit_1e_6 precision then
        do (rms, precision) <- rms_iteration nAnt meas rms;
        rms_loop todo' nAnt meas rms precision
      else Ok rms
  end.

(** aftimeblockencoder.cc:340-398.  _rmsPerAntenna may be longer than
    antennaCount (line 269, 402): the elements behind are left over from other
    calls; here reading them is undefined. *)
Definition calculateAntennaeRMS (nPol nChan pol nAnt : nat) (data : list (drow cd)) : res (list f64) :=
  do meas <- antenna_meas nPol nChan pol nAnt data;
  rms_loop 100 nAnt meas (repeat one64 nAnt) one64.

(** aftimeblockencoder.cc:292-307 *)
Definition af_antennas (nPol nChan nAnt : nat) (st : list (drow cd) * list f32) (pol : nat) : res (list (drow cd) * list f32) :=
  let (data, meta) := st in
  do rms <- calculateAntennaeRMS nPol nChan pol nAnt data;
  do data <- mapM (fun r =>
    do x1 <- rd rms (antenna1 r);
    do x2 <- rd rms (antenna2 r);
    let mul := mul64 x1 x2 in
    let fac := if is0 mul then zero64 else div64 one64 mul in
    foldM (fun r ch => upd_vis r (ch * nPol + pol) (fun v => cmul v fac)) (seq 0 nChan) r) data;
  do meta <- foldM (fun meta a => do x <- rd rms a; wr meta (nPol * nChan + nAnt * pol + a) (to32 x)) (seq 0 nAnt) meta;
  Ok (data, meta).

(** [metaBuffer[i] /= factor]: float divided by double *)
Definition meta_div (meta : list f32) (i : nat) (factor : f64) : res (list f32) :=
  do x <- rd meta i; wr meta i (to32 (div64 (to64 x) factor)).

(** aftimeblockencoder.cc:6-11 *)
Definition changeChannelFactor (data : list (drow cd)) (meta : list f32) (i : nat) (factor : f64) : res (list (drow cd) * list f32) :=
  do meta <- meta_div meta i factor;
  do data <- mapM (fun r => upd_vis r i (fun v => cmul v factor)) data;
  Ok (data, meta).

(** aftimeblockencoder.cc:81-98 *)
Definition changeAntennaFactor (nPol nChan : nat) (data : list (drow cd)) (meta : list f32) (a nAnt pol : nat) (factor : f64)
  : res (list (drow cd) * list f32) :=
  do meta <- meta_div meta (nPol * nChan + nAnt * pol + a) factor;
  do data <- mapM (fun r =>
    let count := ((if antenna1 r =? a then 1 else 0) + (if antenna2 r =? a then 1 else 0))%nat in
    foldM (fun r _ => foldM (fun r ch => upd_vis r (ch * nPol + pol) (fun v => cmul v factor)) (seq 0 nChan) r) (seq 0 count) r) data;
  Ok (data, meta).

Definition is_cross {A} (r : drow A) : bool := negb (antenna1 r =? antenna2 r)%nat.

(** aftimeblockencoder.cc:134-135, 160-161, 193-194 *)
Definition local_max (v : cd) : f64 :=
  std_max (std_max (fst v) (snd v)) (Bopp (std_min (fst v) (snd v))).

(** aftimeblockencoder.cc:130-139, 155-165 *)
Definition largest_component (i : nat) (data : list (drow cd)) : res f64 :=
  foldM (fun m r => if is_cross r then
      do v <- rd (visibilities r) i;
      let c := local_max v in Ok (if is_finite c && Bltb m c then c else m)
    else Ok m) data zero64.

(** aftimeblockencoder.cc:129-145 *)
Definition fit_channels (n : nat) (L : f64) (data : list (drow cd)) (meta : list f32) : res (list (drow cd) * list f32) :=
  foldM (fun '(data, meta) i =>
    do m <- largest_component i data;
    changeChannelFactor data meta i (channel_factor L m)) (seq 0 n) (data, meta).

(** aftimeblockencoder.cc:173-177, 218-220: sum of the absolute components *)
Definition abs_sum (v : cd) : f64 := add64 (Babs (fst v)) (Babs (snd v)).

(** aftimeblockencoder.cc:166-168, 207-216 *)
Definition gain_factor (L m : f64) : f64 := if is0 m then zero64 else sub64 (div64 L m) one64.

(** aftimeblockencoder.cc:170-179 *)
Definition channel_increase (i : nat) (factor : f64) (data : list (drow cd)) : res f64 :=
  foldM (fun s r => if is_cross r then
      do v <- rd (visibilities r) i;
      let a := abs_sum (cmul v factor) in Ok (if is_finite a then add64 s a else s)
    else Ok s) data zero64.

(** aftimeblockencoder.cc:151-185: bestChannelIncrease, bestChannel, channelFactor *)
Definition best_channel (nPol nChan pol : nat) (L : f64) (data : list (drow cd)) : res (f64 * nat * f64) :=
  foldM (fun '(best, ch, cfac) channel =>
    do m <- largest_component (channel * nPol + pol) data;
    let factor := gain_factor L m in
    do inc <- channel_increase (channel * nPol + pol) factor data;
    Ok (if Bltb best inc then (inc, channel, add64 factor one64) else (best, ch, cfac))) (seq 0 nChan) (zero64, O, one64).

(** aftimeblockencoder.cc:187-203: maxCompPerAntenna *)
Definition antenna_max (nPol nChan pol nAnt : nat) (data : list (drow cd)) : res (list f64) :=
  foldM (fun l r => if is_cross r then
    foldM (fun l channel =>
      do v <- rd (visibilities r) (channel * nPol + pol);
      let c := local_max v in
      if is_finite c then
        do m1 <- rd l (antenna1 r);
        do l <- (if Bltb m1 c then wr l (antenna1 r) c else Ok l);
        do m2 <- rd l (antenna2 r);
        (if Bltb m2 c then wr l (antenna2 r) c else Ok l)
      else Ok l) (seq 0 nChan) l
    else Ok l) data (repeat zero64 nAnt).

(** [l[i] += x] if finite, aftimeblockencoder.cc:221, 225 *)
Definition add_at (l : list f64) (i : nat) (x : f64) : res (list f64) :=
  if is_finite x then do y <- rd l i; wr l i (add64 y x) else Ok l.

(** aftimeblockencoder.cc:204-228: increasePerAntenna *)
Definition antenna_increase (nPol nChan pol nAnt : nat) (L : f64) (maxc : list f64) (data : list (drow cd)) : res (list f64) :=
  foldM (fun l r => if is_cross r then
    do m1 <- rd maxc (antenna1 r);
    do m2 <- rd maxc (antenna2 r);
    foldM (fun l channel =>
      do v <- rd (visibilities r) (channel * nPol + pol);
      do l <- add_at l (antenna1 r) (abs_sum (cmul v (gain_factor L m1)));
      add_at l (antenna2 r) (abs_sum (cmul v (gain_factor L m2)))) (seq 0 nChan) l
    else Ok l) data (repeat zero64 nAnt).

(** aftimeblockencoder.cc:229-236 *)
Definition best_antenna (nAnt : nat) (inc : list f64) : res (f64 * nat) :=
  foldM (fun '(best, ant) a => do x <- rd inc a; Ok (if Bltb best x then (x, a) else (best, ant))) (seq 0 nAnt) (zero64, O).

(** aftimeblockencoder.cc:149-260: the body of the do-while loop, returns
    [isProgressing] *)
Definition fit_step (nPol nChan pol nAnt : nat) (L : f64) (data : list (drow cd)) (meta : list f32)
  : res (list (drow cd) * list f32 * bool) :=
  do (bestC, ch, cfac) <- best_channel nPol nChan pol L data;
  do maxc <- antenna_max nPol nChan pol nAnt data;
  do inc <- antenna_increase nPol nChan pol nAnt L maxc data;
  do (bestA, a) <- best_antenna nAnt inc;
  if Bltb bestC bestA then
    do m <- rd maxc a;
    let factor := if is0 m then one64 else div64 L m in
    if Bltb factor one64 then Ok (data, meta, false)
    else do (data, meta) <- changeAntennaFactor nPol nChan data meta a nAnt pol factor;
         Ok (data, meta, Bltb lit_1_01 factor)
  else if Bltb cfac one64 then Ok (data, meta, false)
  else do (data, meta) <- changeChannelFactor data meta (ch * nPol + pol) cfac;
       Ok (data, meta, Bltb lit_1_001 cfac).

(** aftimeblockencoder.cc:148-260: the loop; [None]: still progressing after
    [fuel] rounds (C21 proves this does not happen with enough fuel) *)
Fixpoint fit_loop (fuel : nat) (nPol nChan pol nAnt : nat) (L : f64) (data : list (drow cd)) (meta : list f32)
  : option (res (list (drow cd) * list f32)) :=
  match fuel with
  | O => None
  | S fuel' =>
      match fit_step nPol nChan pol nAnt L data meta with
      | Ok (data, meta, true) => fit_loop fuel' nPol nChan pol nAnt L data meta
      | Ok (data, meta, false) => Some (Ok (data, meta))
      | Throw => Some Throw
      | UB => Some UB
      end
  end.

(** aftimeblockencoder.cc:147-261: the loop over the polarizations; the fuel is
    for each of them *)
Fixpoint fit_pols (fuel : nat) (nPol nChan nAnt : nat) (L : f64) (pols : list nat) (data : list (drow cd)) (meta : list f32)
  : option (res (list (drow cd) * list f32)) :=
  match pols with
  | [] => Some (Ok (data, meta))
  | pol :: t =>
      match fit_loop fuel nPol nChan pol nAnt L data meta with
      | Some (Ok (data, meta)) => fit_pols fuel nPol nChan nAnt L t data meta
      | r => r
      end
  end.

(** aftimeblockencoder.cc:123-262 *)
Definition fitToMaximum (fuel : nat) (nPol nChan nAnt : nat) (L : f64) (data : list (drow cd)) (meta : list f32)
  : option (res (list (drow cd) * list f32)) :=
  match fit_channels (nPol * nChan) L data meta with
  | Ok (data, meta) => fit_pols fuel nPol nChan nAnt L (seq 0 nPol) data meta
  | Throw => Some Throw
  | UB => Some UB
  end.

(** aftimeblockencoder.cc:268-307 *)
Definition af_rms (nPol nChan nAnt : nat) (data : list (drow cd)) (meta : list f32) : res (list (drow cd) * list f32) :=
  do meas <- channel_meas (nPol * nChan) data;
  do (data, meta) <- af_channels (nPol * nChan) meas data meta;
  foldM (af_antennas nPol nChan nAnt) (seq 0 nPol) (data, meta).

(** aftimeblockencoder.cc:264-329 with _fitToMaximum, as constructed in
    dyscodatacolumn.cc:20, 71 *)
Definition af_encode (fuel : nat) (e : encoder) (nPol nChan nAnt : nat) (d : option (nat -> Z)) (b : tbb cf) (meta : list f32) (sym : list nat)
  : option (res (list f32 * list nat)) :=
  match (do L <- MaxQuantity e; do st <- af_rms nPol nChan nAnt (ConvertVector widen b) meta; Ok (L, st)) with
  | Ok (L, (data, meta)) =>
      match fitToMaximum fuel nPol nChan nAnt (to64 L) data meta with
      | Some (Ok (data, meta)) => Some (do sym <- write_symbols e (nPol * nChan) d data sym; Ok (meta, sym))
      | Some Throw => Some Throw
      | Some UB => Some UB
      | None => None
      end
  | Throw => Some Throw
  | UB => Some UB
  end.

(** aftimeblockencoder.h:57-60 *)
Definition af_MetaDataCount (nRow nPol nChan nAnt : nat) : nat := nPol * (nChan + nAnt).

(** aftimeblockencoder.cc:400-411: _rmsPerChannel, and _rmsPerAntenna as a
    function of antenna and polarization (stored at [a * _nPol + p]; a longer
    vector keeps old elements behind, reading them is undefined here) *)
Definition af_init (nPol nChan : nat) (meta : list f32) (nAnt : nat) : res (list f64 * list f64) :=
  do c <- rds meta 0 (nPol * nChan);
  do a <- foldM (fun l p => foldM (fun l a => do x <- rd meta (nPol * nChan + (a + p * nAnt)); wr l (a * nPol + p) (to64 x)) (seq 0 nAnt) l)
            (seq 0 nPol) (repeat zero64 (nAnt * nPol));
  Ok (map to64 c, a).

(** aftimeblockencoder.cc:413-439: sample [i] is [ch * _nPol + p] *)
Definition af_decode (e : encoder) (nPol nChan : nat) (factors : list f64 * list f64) (symbols : list nat) (blockRow a1 a2 : nat) : res (list cf) :=
  do ant <- mapM (fun p => do x1 <- rd (snd factors) (a1 * nPol + p); do x2 <- rd (snd factors) (a2 * nPol + p); Ok (mul64 x1 x2)) (seq 0 nPol);
  decode_row e (nPol * nChan) (SymbolsPerRow nPol nChan) symbols blockRow
    (fun i => do c <- rd (fst factors) i; do x <- rd ant (i mod nPol); Ok (mul64 c x)).
