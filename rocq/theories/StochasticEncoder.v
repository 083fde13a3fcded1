(** Model of [StochasticEncoder<float>] (/repo/stochasticencoder.h, .cc). *)
From Verif Require Import Base Floats Dictionary.

(** The two dictionaries (stochasticencoder.h:166-167).  [slack] are the
    initialised elements stored behind the end of [_decDictionary] but inside
    its allocation (stochasticencoder.cc:116-121). *)
Record encoder := Encoder { enc : list f32; dec : list f32; slack : list f32 }.

(** stochasticencoder.h:147 *)
Definition QuantizationCount (e : encoder) : nat := length (dec e) + 1.
(** stochasticencoder.h:149, 151; uvector.h back()/front() on an empty vector is UB *)
Definition MaxQuantity (e : encoder) : res f32 := rd (dec e) (length (dec e) - 1).
Definition MinQuantity (e : encoder) : res f32 := rd (dec e) 0.

(** stochasticencoder.h:81-86.  Symbols are [unsigned]; the dictionaries are
    assumed smaller than 2^32 so no truncation occurs. *)
Definition Encode (e : encoder) (v : f32) : res nat :=
  if is_finite v then
    do r <- lower_bound false (enc e) v; Ok (symbol r)
  else Ok (QuantizationCount e - 1)%nat.

(** stochasticencoder.h:114-115; [ValueType(1u << 31)] *)
Definition dither_mark (v lv rv : f32) : f32 :=
  div32 (mul32 (of32 (2 ^ 31)) (sub32 v lv)) (sub32 rv lv).

(** stochasticencoder.h:116: [ditherMark > ditherValue], the unsigned value is
    converted to float *)
Definition dither_right (v lv rv : f32) (d : Z) : bool :=
  Bltb (of32 d) (dither_mark v lv rv).

(** stochasticencoder.h:103-123.  [lowerBound - 1] is an iterator; it is only
    formed when [lowerBound] is not [begin()]. *)
Definition EncodeWithDithering (e : encoder) (v : f32) (d : Z) : res nat :=
  if is_finite v then
    do r <- lower_bound false (dec e) v;
    if (r =? 0)%nat then Ok (symbol r)
    else if (r =? length (dec e))%nat then Ok (symbol (r - 1))
    else
      do rv <- rd (dec e) r;
      do lv <- rd (dec e) (r - 1);
      Ok (if dither_right v lv rv d then symbol r else symbol (r - 1))
  else Ok (length (enc e)).

(** stochasticencoder.h:131-136 *)
Definition RightBoundary (e : encoder) (s : nat) : res f32 :=
  if (s =? length (enc e))%nat then Ok (B754_zero false) else rd (enc e) s.

(** stochasticencoder.h:143-145: unchecked indexing, which may reach the slack *)
Definition Decode (e : encoder) (s : nat) : res f32 := rd (dec e ++ slack e) s.

(** Copy construction: [Dictionary] and [UVector] copy only [size()] elements
    into an allocation of that size (uvector.h:162-169). *)
Definition copy_encoder (e : encoder) : encoder := Encoder (enc e) (dec e) [].
(** Move construction takes over the allocation (uvector.h:186-194). *)
Definition move_encoder (e : encoder) : encoder := e.

(** ** Construction *)

(** Loop shared by the three constructors (stochasticencoder.cc:85-95, 97-109,
    130-140, 156-168): [bnd i] and [val i] stand for the expressions stored for
    iteration [i].  [ea], [da] are the allocations of [quantCount-1] and
    [quantCount] elements with arbitrary initial contents; [ei], [di] the
    iterators. *)
Fixpoint fill_loop (bnd val : nat -> f32) (todo i : nat) (ea : list f32) (ei : nat) (da : list f32) (di : nat)
  : res (list f32 * nat * list f32 * nat) :=
  match todo with
  | O => Ok (ea, ei, da, di)
  | S todo' =>
      do st <- (if (i =? 0)%nat then Ok (ea, ei)
                else do ea' <- wr ea ei (bnd i); Ok (ea', S ei));
      let (ea', ei') := st in
      do da' <- wr da di (val i);
      fill_loop bnd val todo' (S i) ea' ei' da' (S di)
  end.

(** stochasticencoder.cc:69-122, 125-143, 146-171 with the quantile
    expressions abstracted.  [quantCount = 0] wraps around in the source and is
    not modelled (every caller passes [1 << bits]). *)
Definition construct (quantCount : nat) (bnd val : nat -> f32) (ea da : list f32) : res encoder :=
  do st <- fill_loop bnd val (quantCount - 1) 0 ea 0 da 0;
  let '(ea', ei, da', di) := st in
  do ea'' <- wr ea' ei max32;
  do da'' <- wr da' di nan32;
  Ok (Encoder ea'' (firstn (quantCount - 1) da'') (skipn (quantCount - 1) da'')).

(** stochasticencoder.cc:79: [stddev = stddev * std::sqrt(3)], evaluated in
    double and converted to float *)
Definition scaled_stddev (stddev : f32) : f32 := to32 (mul64 (to64 stddev) (sqrt64 (of64 3))).

(** stochasticencoder.cc:99-100, long double arithmetic *)
Definition uniform_bnd (stddev : f32) (quantCount : nat) (i : nat) : f32 :=
  to32 (mul80 (to80 stddev)
    (add80 (of80 (-1)) (div80 (mul80 (of80 2) (of80 (Z.of_nat i))) (of80 (Z.of_nat quantCount - 1))))).
(** stochasticencoder.cc:104-106 *)
Definition uniform_val (stddev : f32) (quantCount : nat) (i : nat) : f32 :=
  to32 (mul80 (to80 stddev)
    (add80 (of80 (-1))
      (div80 (mul80 (of80 2) (add80 (of80 (Z.of_nat i)) (dy 1 (-1)))) (of80 (Z.of_nat quantCount - 1))))).

(** the encoder of the Uniform distribution (stochasticencoder.cc:69-122 with
    [gaussianMapping = false]; dyscodatacolumn.cc:35-38) *)
Definition uniform_encoder (quantCount : nat) (stddev : f32) (ea da : list f32) : res encoder :=
  let s := scaled_stddev stddev in
  construct quantCount (uniform_bnd s quantCount) (uniform_val s quantCount) ea da.
