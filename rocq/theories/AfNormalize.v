(** Model of [AFTimeBlockEncoder::Normalize] (/repo/aftimeblockencoder.cc:25-79), a public
    function that the storage manager does not use (aftimeblockencoder.h:62). *)
From Verif Require Import Base Floats TimeBlockBuffer StochasticEncoder TimeBlockEncoders.
Local Open Scope nat_scope.

(** aftimeblockencoder.cc:33-45: unlike in [encode], channels without power are divided by
    zero *)
Definition normalize_channels (n : nat) (data : list (drow cd)) : res (list (drow cd)) :=
  do meas <- channel_meas n data;
  mapM (fun r => foldM (fun r i => do m <- rd meas i; upd_vis r i (fun v => cdiv v (RMS m))) (seq 0 n) r) data.

(** aftimeblockencoder.cc:47-58, one polarization *)
Definition normalize_antennas (nPol nChan nAnt : nat) (data : list (drow cd)) (pol : nat) : res (list (drow cd)) :=
  do rms <- calculateAntennaeRMS nPol nChan pol nAnt data;
  mapM (fun r =>
    do x1 <- rd rms (antenna1 r);
    do x2 <- rd rms (antenna2 r);
    let mul := mul64 x1 x2 in
    let fac := if is0 mul then zero64 else div64 one64 mul in
    foldM (fun r ch => upd_vis r (ch * nPol + pol) (fun v => cmul v fac)) (seq 0 nChan) r) data.

(** aftimeblockencoder.cc:62-75; [hi] and [lo] are MaxQuantity and MinQuantity *)
Definition normalize_factor (hi lo : f64) (i : nat) (data : list (drow cd)) : res f64 :=
  foldM (fun factor r => if is_cross r then
      do v <- rd (visibilities r) i;
      let complMax := std_max (fst v) (snd v) in
      let complMin := std_min (fst v) (snd v) in
      Ok (if Bltb hi (mul64 complMax factor) then div64 complMax hi
          else if Bltb (mul64 complMin factor) lo then div64 complMin lo
          else factor)
    else Ok factor) data one64.
(** aftimeblockencoder.cc:60-78 *)
Definition normalize_fit (n : nat) (hi lo : f64) (data : list (drow cd)) : res (list (drow cd)) :=
  foldM (fun data i =>
    do factor <- normalize_factor hi lo i data;
    mapM (fun r => upd_vis r i (fun v => cmul v factor)) data) (seq 0 n) data.

(** what is computed in the local variable [data], aftimeblockencoder.cc:28-78; MaxQuantity
    and MinQuantity are called here also when there is no row to fit *)
Definition normalized (e : encoder) (nPol nChan nAnt : nat) (fitToMaximum : bool) (b : tbb cf) : res (list (drow cd)) :=
  do data <- normalize_channels (nPol * nChan) (ConvertVector widen b);
  do data <- foldM (normalize_antennas nPol nChan nAnt) (seq 0 nPol) data;
  if fitToMaximum then
    do hi <- MaxQuantity e; do lo <- MinQuantity e; normalize_fit (nPol * nChan) (to64 hi) (to64 lo) data
  else Ok data.
(** aftimeblockencoder.cc:25-79: the buffer after the call.  The variable [data] is not
    copied back to it. *)
Definition Normalize (e : encoder) (nPol nChan nAnt : nat) (fitToMaximum : bool) (b : tbb cf) : res (tbb cf) :=
  do data <- normalized e nPol nChan nAnt fitToMaximum b; Ok b.
