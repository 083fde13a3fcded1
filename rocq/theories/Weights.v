(** Model of [WeightBlockEncoder] (/repo/weightblockencoder.h) and
    [WeightEncoder<float>] (/repo/weightencoder.h). *)
From Verif Require Import Base Floats.

(** [roundf]: to nearest integer, halves away from zero *)
Definition roundf (x : f32) : f32 := Bnearbyint mode_NA x.

(** conversion of a float to [unsigned int]: undefined unless the truncated
    value fits *)
Definition to_unsigned (x : f32) : res N :=
  if is_finite x then
    let z := Btrunc x in
    if ((0 <=? z) && (z <? 2 ^ 32))%Z then Ok (Z.to_N z) else UB
  else UB.

(** The visibilities of one row of the block, indexed [channel * nPol + pol]
    (weightblockencoder.h:45).  A row that was never filled is the empty list. *)
Definition row := list f32.

(** weightblockencoder.h:45-48: minimum over the polarizations of a channel.
    With [nPol = 0] the loop [p = 1; p != 0] runs out of the array. *)
Definition channel_weight (nPol : nat) (r : row) (ch : nat) : res f32 :=
  if (nPol =? 0)%nat then UB else
  do w0 <- rd r (ch * nPol);
  foldM (fun w p => do x <- rd r (ch * nPol + p); Ok (if Bltb x w then x else w))
        (seq 1 (nPol - 1)) w0.

(** all channel weights of the block, in symbol order *)
Definition channel_weights (nPol nChan : nat) (block : list row) : res (list f32) :=
  do l <- mapM (fun r => mapM (channel_weight nPol r) (seq 0 nChan)) block;
  Ok (concat l).

(** weightblockencoder.h:49 *)
Definition pick_max (m w : f32) : f32 := if Bltb m w then w else m.
(** weightblockencoder.h:42-52 *)
Definition max_loop (ws : list f32) : f32 :=
  fold_left pick_max ws (B754_zero false).
Definition max_value (ws : list f32) : f32 :=
  let m := max_loop ws in if Beqb m (B754_zero false) then of32 1 else m.

(** weightblockencoder.h:55 *)
Definition enc_scale (quantCount : Z) (m : f32) : f64 := div64 (of64 (quantCount - 1)) (to64 m).
(** weightblockencoder.h:64; the product is a double, the argument of roundf a
    float *)
Definition quantize (quantCount : Z) (m w : f32) : res N :=
  to_unsigned (roundf (to32 (mul64 (to64 w) (enc_scale quantCount m)))).

(** weightblockencoder.h:40-68: the meta data value and the symbols.
    Simplification: the two passes over the (unchanged) buffer read the weights
    once. *)
Definition EncodeWeights (nPol nChan : nat) (quantCount : Z) (block : list row) : res (f32 * list N) :=
  do ws <- channel_weights nPol nChan block;
  let m := max_value ws in
  do ss <- mapM (quantize quantCount m) ws;
  Ok (m, ss).

(** weightblockencoder.h:28, 32 *)
Definition dec_scale (quantCount : Z) (m : f32) : f64 := div64 (to64 m) (of64 (quantCount - 1)).
Definition dequantize (quantCount : Z) (m : f32) (s : N) : f32 :=
  to32 (mul64 (of64 (Z.of_N s)) (dec_scale quantCount m)).

(** weightblockencoder.h:26-38: the visibilities of row [blockRow] *)
Definition DecodeWeights (nPol nChan : nat) (quantCount : Z) (m : f32) (symbols : list N) (blockRow : nat) : res row :=
  do vs <- mapM (fun ch => do s <- rd symbols (blockRow * nChan + ch);
                           Ok (repeat (dequantize quantCount m s) nPol)) (seq 0 nChan);
  Ok (concat vs).

(** ** WeightEncoder<float> (weightencoder.h; not used by the storage manager) *)

(** weightencoder.h:37-57 (lines of that file) *)
Definition we_scale (input : list f32) : res f32 :=
  match input with
  | [] => UB
  | x :: t => Ok (fold_left pick_max t x)
  end.
Definition WeightEncode (quantCount : Z) (input : list f32) : res (f32 * list N) :=
  do m <- we_scale input;
  let fact := div32 (of32 (quantCount - 1)) m in
  do ss <- mapM (fun w => to_unsigned (roundf (mul32 fact w))) input;
  Ok (m, ss).
(** weightencoder.h:66-77; [unsigned * float] is a float product *)
Definition WeightDecode (quantCount : Z) (m : f32) (symbols : list N) : list f32 :=
  let fact := div32 m (of32 (quantCount - 1)) in
  map (fun s => mul32 (of32 (Z.of_N s)) fact) symbols.
