(** Property theorems C01-C04: BytePacker.  Statements only. *)
From Verif Require Import Base BytePacker BitStream BytePackerProofs BytePackerWhole BytePackerTop.
Local Open Scope N_scope.

(** C01 *)
Theorem C01_pack_unpack_roundtrip : forall b n dest symbols out0,
  supported b ->
  (n <= length symbols)%nat ->
  (N.to_nat (bufferSize (N.of_nat n) b) <= length dest)%nat ->
  (n <= length out0)%nat ->
  fits b (firstn n symbols) -> fits 8 dest ->
  exists packed,
    pack b dest symbols n = Ok packed /\
    length packed = length dest /\
    unpack b out0 packed n = Ok (firstn n symbols ++ skipn n out0).
Proof. exact roundtrip_lem. Qed.
Print Assumptions C01_pack_unpack_roundtrip.

(** the hypotheses are satisfiable: 11 three-bit symbols (one full group and a
    tail of three) *)
Example C01_example :
  let syms := [1; 7; 0; 5; 2; 3; 4; 6; 7; 1; 2] in
  supported 3 /\ fits 3 (firstn 11 syms) /\
  exists packed, pack 3 (repeat 0 5) syms 11 = Ok packed /\
                 unpack 3 (repeat 9 12) packed 11 = Ok (syms ++ [9]).
Proof.
  split; [right; left; reflexivity|]. split; [repeat constructor|].
  eexists. split; vm_compute; reflexivity.
Qed.

(** the range precondition is needed: an out-of-range symbol corrupts its neighbour *)
Example C01_range_needed :
  exists packed, pack 2 [0] [4; 0; 0; 0] 4 = Ok packed /\ unpack 2 [0; 0; 0; 0] packed 4 = Ok [0; 1; 0; 0].
Proof. eexists. split; vm_compute; reflexivity. Qed.

(** C02: integer form of the layout *)
Theorem C02_pack_layout : forall b n dest symbols,
  supported b ->
  (n <= length symbols)%nat ->
  (N.to_nat (bufferSize (N.of_nat n) b) <= length dest)%nat ->
  fits b (firstn n symbols) ->
  pack b dest symbols n =
  Ok (digits 8 (N.to_nat (bufferSize (N.of_nat n) b)) (value b (firstn n symbols))
      ++ skipn (N.to_nat (bufferSize (N.of_nat n) b)) dest).
Proof. exact pack_layout_lem. Qed.
Print Assumptions C02_pack_layout.

Theorem C02_unpack_layout : forall b n symbols packed,
  supported b ->
  (n <= length symbols)%nat ->
  (N.to_nat (bufferSize (N.of_nat n) b) <= length packed)%nat ->
  fits 8 packed ->
  unpack b symbols packed n =
  Ok (digits b n (value 8 (firstn (N.to_nat (bufferSize (N.of_nat n) b)) packed)) ++ skipn n symbols).
Proof. exact unpack_layout_lem. Qed.
Print Assumptions C02_unpack_layout.

(** C02: bit form; [stream_bit] of a position past the last symbol is false
    (zero padding) *)
Theorem C02_pack_bits : forall b n dest symbols packed,
  supported b ->
  (n <= length symbols)%nat ->
  (N.to_nat (bufferSize (N.of_nat n) b) <= length dest)%nat ->
  fits b (firstn n symbols) ->
  pack b dest symbols n = Ok packed ->
  length packed = length dest /\
  (forall k j, (k < N.to_nat (bufferSize (N.of_nat n) b))%nat ->
     N.testbit (nth k packed 0) j =
     if j <? 8 then stream_bit b (firstn n symbols) (8 * N.of_nat k + j) else false) /\
  (forall k, (N.to_nat (bufferSize (N.of_nat n) b) <= k)%nat -> nth k packed 0 = nth k dest 0).
Proof. exact pack_bits_lem. Qed.
Print Assumptions C02_pack_bits.

Theorem C02_unpack_bits : forall b n symbols packed out,
  supported b ->
  (n <= length symbols)%nat ->
  (N.to_nat (bufferSize (N.of_nat n) b) <= length packed)%nat ->
  fits 8 packed ->
  unpack b symbols packed n = Ok out ->
  length out = length symbols /\
  (forall i j, (i < n)%nat ->
     N.testbit (nth i out 0) j =
     if j <? b then stream_bit 8 packed (b * N.of_nat i + j) else false) /\
  (forall i, (i < n)%nat -> nth i out 0 < 2 ^ b) /\
  (forall k, (n <= k)%nat -> nth k out 0 = nth k symbols 0).
Proof. exact unpack_bits_lem. Qed.
Print Assumptions C02_unpack_bits.

Example C02_example :
  pack 12 [9; 9; 9; 9; 9; 9] [0xABC; 0x123; 0xFED] 3 = Ok [0xBC; 0x3A; 0x12; 0xED; 0x0F; 9].
Proof. vm_compute. reflexivity. Qed.

(** C03: accesses stay in bounds exactly for buffers of the documented size,
    and that size is the least possible one *)
Theorem C03_pack_exact : forall b n dest symbols,
  supported b -> fits b symbols ->
  ((n <= length symbols)%nat /\ (N.to_nat (bufferSize (N.of_nat n) b) <= length dest)%nat
     <-> is_ok (pack b dest symbols n) = true) /\
  (~ ((n <= length symbols)%nat /\ (N.to_nat (bufferSize (N.of_nat n) b) <= length dest)%nat)
     -> pack b dest symbols n = UB).
Proof. exact pack_exact_lem. Qed.
Print Assumptions C03_pack_exact.

Theorem C03_unpack_exact : forall b n symbols packed,
  supported b -> fits 8 packed ->
  ((n <= length symbols)%nat /\ (N.to_nat (bufferSize (N.of_nat n) b) <= length packed)%nat
     <-> is_ok (unpack b symbols packed n) = true) /\
  (~ ((n <= length symbols)%nat /\ (N.to_nat (bufferSize (N.of_nat n) b) <= length packed)%nat)
     -> unpack b symbols packed n = UB).
Proof. exact unpack_exact_lem. Qed.
Print Assumptions C03_unpack_exact.

Theorem C03_buffer_size_least : forall n b,
  least_bytes (N.of_nat n * b) (N.of_nat (N.to_nat (bufferSize (N.of_nat n) b))).
Proof. exact bsz_least. Qed.
Print Assumptions C03_buffer_size_least.

Example C03_example :
  is_ok (pack 10 [0; 0; 0; 0] [1; 2; 3] 3) = true /\ pack 10 [0; 0; 0] [1; 2; 3] 3 = UB.
Proof. split; vm_compute; reflexivity. Qed.

(** C04 *)
Theorem C04_pack_throws_iff_unsupported : forall b dest symbols n,
  pack b dest symbols n = Throw <-> ~ supported b.
Proof. exact pack_throws_lem. Qed.
Print Assumptions C04_pack_throws_iff_unsupported.

Theorem C04_unpack_throws_iff_unsupported : forall b symbols packed n,
  unpack b symbols packed n = Throw <-> ~ supported b.
Proof. exact unpack_throws_lem. Qed.
Print Assumptions C04_unpack_throws_iff_unsupported.

Example C04_example : pack 5 [0] [1] 1 = Throw /\ pack 0 [0] [1] 1 = Throw /\ unpack 32 [0] [1] 1 = Throw.
Proof. repeat split. Qed.
