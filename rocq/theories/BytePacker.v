(** Model of [BytePacker] (/repo/bytepacker.h).

    A pointer that walks forward through an array is a zipper
    [(rev left, right)]: dereferencing needs [right] to be non-empty,
    [++p] needs [right] to be non-empty (so a pointer can reach one-past-the-end
    but never go beyond it); otherwise the outcome is [UB].
    Memory cells are [N]; a store into an array of [w]-bit unsigned cells
    truncates modulo [2^w]. *)
From Verif Require Import Base.
Local Open Scope N_scope.

(** Two walking pointers: a read-only source and a read/write destination. *)
Record ptrs := mkP { sl : list N; sr : list N; dl : list N; dr : list N }.

Definition M := ptrs -> res ptrs.

Definition skip : M := fun p => Ok p.
Definition seqM (a b : M) : M := fun p => do q <- a p; b q.
Notation "a ;; b" := (seqM a b) (at level 61, right associativity).

(** [*dest = e( *source)], [*dest |= e( *source)] with [w]-bit destination cells *)
Definition st (w : N) (e : N -> N) : M := fun p =>
  match sr p, dr p with
  | s :: _, _ :: d' => Ok (mkP (sl p) (sr p) (dl p) (e s mod 2 ^ w :: d'))
  | _, _ => UB
  end.

Definition orst (w : N) (e : N -> N) : M := fun p =>
  match sr p, dr p with
  | s :: _, d :: d' => Ok (mkP (sl p) (sr p) (dl p) (N.lor d (e s) mod 2 ^ w :: d'))
  | _, _ => UB
  end.

(** [++source], [++dest] *)
Definition incS : M := fun p =>
  match sr p with
  | s :: t => Ok (mkP (s :: sl p) t (dl p) (dr p))
  | [] => UB
  end.

Definition incD : M := fun p =>
  match dr p with
  | d :: t => Ok (mkP (sl p) (sr p) (d :: dl p) t)
  | [] => UB
  end.

(** [for (i = 0; i != limit; i++) body] *)
Fixpoint loop (n : nat) (body : M) : M :=
  match n with
  | O => skip
  | S n' => body ;; loop n' body
  end.

(** [if (pos != symbolCount) body] *)
Definition ifmore (pos n : nat) (body : M) : M :=
  if Nat.eqb pos n then skip else body.

(** Expressions: [x & mask], [x << k] on 32-bit unsigned, [x >> k]. *)
Definition id_ (x : N) : N := x.
Definition shl (k x : N) : N := N.shiftl x k mod 2 ^ 32.
Definition mshl (mask k x : N) : N := N.shiftl (N.land x mask) k mod 2 ^ 32.
Definition mshr (mask k x : N) : N := N.shiftr (N.land x mask) k.
Definition msk (mask x : N) : N := N.land x mask.

(** bytepacker.h:148-150.  [size_t] overflow of [nSymbols*nBits] is not
    modelled (it needs more than 2^60 symbols). *)
Definition bufferSize (nSymbols nBits : N) : N := (nSymbols * nBits + 7) / 8.

Local Notation s8 := (st 8).
Local Notation o8 := (orst 8).
Local Notation s32 := (st 32).
Local Notation o32 := (orst 32).

(** bytepacker.h:224-234 *)
Definition pack2_group : M :=
  s8 id_ ;; incS ;; o8 (shl 2) ;; incS ;; o8 (shl 4) ;; incS ;; o8 (shl 6) ;; incS ;; incD.
(** bytepacker.h:235-250; [pos = limit*4] *)
Definition pack2_tail (pos n : nat) : M :=
  ifmore pos n (s8 id_ ;;
  ifmore (pos + 1) n (incS ;; o8 (shl 2) ;;
  ifmore (pos + 2) n (incS ;; o8 (shl 4)))).
(** bytepacker.h:220-251 *)
Definition pack2 (n : nat) : M :=
  let limit := Nat.div n 4 in loop limit pack2_group ;; pack2_tail (limit * 4) n.

(** bytepacker.h:257-267 *)
Definition unpack2_group : M :=
  s32 (msk 0x03) ;; incD ;; s32 (mshr 0x0C 2) ;; incD ;; s32 (mshr 0x30 4) ;; incD ;;
  s32 (mshr 0xC0 6) ;; incD ;; incS.
(** bytepacker.h:268-283 *)
Definition unpack2_tail (pos n : nat) : M :=
  ifmore pos n (s32 (msk 0x03) ;;
  ifmore (pos + 1) n (incD ;; s32 (mshr 0x0C 2) ;;
  ifmore (pos + 2) n (incD ;; s32 (mshr 0x30 4)))).
(** bytepacker.h:253-284 *)
Definition unpack2 (n : nat) : M :=
  let limit := Nat.div n 4 in loop limit unpack2_group ;; unpack2_tail (limit * 4) n.

(** bytepacker.h:289-313 *)
Definition pack3_group : M :=
  s8 id_ ;; incS ;; o8 (shl 3) ;; incS ;; o8 (mshl 0x3 6) ;; incD ;;
  s8 (mshr 0x4 2) ;; incS ;; o8 (shl 1) ;; incS ;; o8 (shl 4) ;; incS ;; o8 (mshl 0x1 7) ;; incD ;;
  s8 (mshr 0x6 1) ;; incS ;; o8 (shl 2) ;; incS ;; o8 (shl 5) ;; incS ;; incD.
(** bytepacker.h:315-352 *)
Definition pack3_tail (pos n : nat) : M :=
  ifmore pos n (s8 id_ ;;
  ifmore (pos + 1) n (incS ;; o8 (shl 3) ;;
  ifmore (pos + 2) n (incS ;; o8 (mshl 0x3 6) ;; incD ;; s8 (mshr 0x4 2) ;;
  ifmore (pos + 3) n (incS ;; o8 (shl 1) ;;
  ifmore (pos + 4) n (incS ;; o8 (shl 4) ;;
  ifmore (pos + 5) n (incS ;; o8 (mshl 0x1 7) ;; incD ;; s8 (mshr 0x6 1) ;;
  ifmore (pos + 6) n (incS ;; o8 (shl 2)))))))).
(** bytepacker.h:286-353 *)
Definition pack3 (n : nat) : M :=
  let limit := Nat.div n 8 in loop limit pack3_group ;; pack3_tail (limit * 8) n.

(** bytepacker.h:359-383 *)
Definition unpack3_group : M :=
  s32 (msk 0x07) ;; incD ;; s32 (mshr 0x38 3) ;; incD ;; s32 (mshr 0xC0 6) ;; incS ;;
  o32 (mshl 0x01 2) ;; incD ;; s32 (mshr 0x0e 1) ;; incD ;; s32 (mshr 0x70 4) ;; incD ;;
  s32 (mshr 0x80 7) ;; incS ;;
  o32 (mshl 0x03 1) ;; incD ;; s32 (mshr 0x1c 2) ;; incD ;; s32 (mshr 0xe0 5) ;; incD ;; incS.
(** bytepacker.h:384-430 *)
Definition unpack3_tail (pos n : nat) : M :=
  ifmore pos n (s32 (msk 0x07) ;;
  ifmore (pos + 1) n (incD ;; s32 (mshr 0x38 3) ;;
  ifmore (pos + 2) n (incD ;; s32 (mshr 0xC0 6) ;; incS ;; o32 (mshl 0x01 2) ;;
  ifmore (pos + 3) n (incD ;; s32 (mshr 0x0e 1) ;;
  ifmore (pos + 4) n (incD ;; s32 (mshr 0x70 4) ;;
  ifmore (pos + 5) n (incD ;; s32 (mshr 0x80 7) ;; incS ;; o32 (mshl 0x03 1) ;;
  ifmore (pos + 6) n (incD ;; s32 (mshr 0x1c 2)))))))).
(** bytepacker.h:355-431 *)
Definition unpack3 (n : nat) : M :=
  let limit := Nat.div n 8 in loop limit unpack3_group ;; unpack3_tail (limit * 8) n.

(** bytepacker.h:437-443 *)
Definition pack4_group : M := s8 id_ ;; incS ;; o8 (shl 4) ;; incS ;; incD.
(** bytepacker.h:444 *)
Definition pack4_tail (pos n : nat) : M := ifmore pos n (s8 id_).
(** bytepacker.h:433-445 *)
Definition pack4 (n : nat) : M :=
  let limit := Nat.div n 2 in loop limit pack4_group ;; pack4_tail (limit * 2) n.

(** bytepacker.h:451-457 *)
Definition unpack4_group : M := s32 (msk 0x0F) ;; incD ;; s32 (mshr 0xF0 4) ;; incD ;; incS.
(** bytepacker.h:458-459 *)
Definition unpack4_tail (pos n : nat) : M := ifmore pos n (s32 (msk 0x0F)).
(** bytepacker.h:447-460 *)
Definition unpack4 (n : nat) : M :=
  let limit := Nat.div n 2 in loop limit unpack4_group ;; unpack4_tail (limit * 2) n.

(** bytepacker.h:465-481 *)
Definition pack6_group : M :=
  s8 id_ ;; incS ;; o8 (mshl 3 6) ;; incD ;;
  s8 (mshr 60 2) ;; incS ;; o8 (mshl 15 4) ;; incD ;;
  s8 (mshr 48 4) ;; incS ;; o8 (shl 2) ;; incS ;; incD.
(** bytepacker.h:483-507 *)
Definition pack6_tail (pos n : nat) : M :=
  ifmore pos n (s8 id_ ;;
  ifmore (pos + 1) n (incS ;; o8 (mshl 3 6) ;; incD ;; s8 (mshr 60 2) ;;
  ifmore (pos + 2) n (incS ;; o8 (mshl 15 4) ;; incD ;; s8 (mshr 48 4)))).
(** bytepacker.h:462-508 *)
Definition pack6 (n : nat) : M :=
  let limit := Nat.div n 4 in loop limit pack6_group ;; pack6_tail (limit * 4) n.

(** bytepacker.h:514-530 *)
Definition unpack6_group : M :=
  s32 (msk 63) ;; incD ;; s32 (mshr 192 6) ;; incS ;;
  o32 (mshl 15 2) ;; incD ;; s32 (mshr 240 4) ;; incS ;;
  o32 (mshl 3 4) ;; incD ;; s32 (mshr 252 2) ;; incS ;; incD.
(** bytepacker.h:531-553 *)
Definition unpack6_tail (pos n : nat) : M :=
  ifmore pos n (s32 (msk 63) ;;
  ifmore (pos + 1) n (incD ;; s32 (mshr 192 6) ;; incS ;; o32 (mshl 15 2) ;;
  ifmore (pos + 2) n (incD ;; s32 (mshr 240 4) ;; incS ;; o32 (mshl 3 4)))).
(** bytepacker.h:510-554 *)
Definition unpack6 (n : nat) : M :=
  let limit := Nat.div n 4 in loop limit unpack6_group ;; unpack6_tail (limit * 4) n.

(** bytepacker.h:556-565.  [dest[i]]/[symbolBuffer[i]] for consecutive [i] is
    modelled with walking pointers. *)
Definition pack8 (n : nat) : M := loop n (s8 id_ ;; incS ;; incD).
Definition unpack8 (n : nat) : M := loop n (s32 id_ ;; incS ;; incD).

(** bytepacker.h:571-590 *)
Definition pack10_group : M :=
  s8 (msk 0x0FF) ;; incD ;; s8 (mshr 0x300 8) ;; incS ;; o8 (mshl 0x03F 2) ;; incD ;;
  s8 (mshr 0x3C0 6) ;; incS ;;
  o8 (mshl 0x00F 4) ;; incD ;; s8 (mshr 0x3F0 4) ;; incS ;; o8 (mshl 0x003 6) ;; incD ;;
  s8 (mshr 0x3FC 2) ;; incS ;; incD.
(** bytepacker.h:592-616 *)
Definition pack10_tail (pos n : nat) : M :=
  ifmore pos n (s8 (msk 0x0FF) ;; incD ;; s8 (mshr 0x300 8) ;;
  ifmore (pos + 1) n (incS ;; o8 (mshl 0x03F 2) ;; incD ;; s8 (mshr 0x3C0 6) ;;
  ifmore (pos + 2) n (incS ;; o8 (mshl 0x00F 4) ;; incD ;; s8 (mshr 0x3F0 4)))).
(** bytepacker.h:567-617 *)
Definition pack10 (n : nat) : M :=
  let limit := Nat.div n 4 in loop limit pack10_group ;; pack10_tail (limit * 4) n.

(** bytepacker.h:623-644 *)
Definition unpack10_group : M :=
  s32 id_ ;; incS ;; o32 (mshl 0x03 8) ;; incD ;;
  s32 (mshr 0xFC 2) ;; incS ;; o32 (mshl 0x0F 6) ;; incD ;;
  s32 (mshr 0xF0 4) ;; incS ;; o32 (mshl 0x3F 4) ;; incD ;;
  s32 (mshr 0xC0 6) ;; incS ;; o32 (shl 2) ;; incS ;; incD.
(** bytepacker.h:645-667 *)
Definition unpack10_tail (pos n : nat) : M :=
  ifmore pos n (s32 id_ ;; incS ;; o32 (mshl 0x03 8) ;;
  ifmore (pos + 1) n (incD ;; s32 (mshr 0xFC 2) ;; incS ;; o32 (mshl 0x0F 6) ;;
  ifmore (pos + 2) n (incD ;; s32 (mshr 0xF0 4) ;; incS ;; o32 (mshl 0x3F 4)))).
(** bytepacker.h:619-668 *)
Definition unpack10 (n : nat) : M :=
  let limit := Nat.div n 4 in loop limit unpack10_group ;; unpack10_tail (limit * 4) n.

(** bytepacker.h:674-686 *)
Definition pack12_group : M :=
  s8 (msk 0x0FF) ;; incD ;;
  s8 (mshr 0xF00 8) ;; incS ;; o8 (mshl 0x00F 4) ;; incD ;;
  s8 (mshr 0xFF0 4) ;; incS ;; incD.
(** bytepacker.h:687-692 *)
Definition pack12_tail (pos n : nat) : M :=
  ifmore pos n (s8 (msk 0x0FF) ;; incD ;; s8 (mshr 0xF00 8)).
(** bytepacker.h:670-693 *)
Definition pack12 (n : nat) : M :=
  let limit := Nat.div n 2 in loop limit pack12_group ;; pack12_tail (limit * 2) n.

(** bytepacker.h:699-710 *)
Definition unpack12_group : M :=
  s32 id_ ;; incS ;; o32 (mshl 0x0F 8) ;; incD ;;
  s32 (mshr 0xF0 4) ;; incS ;; o32 (mshl 0xFF 4) ;; incS ;; incD.
(** bytepacker.h:711-715 *)
Definition unpack12_tail (pos n : nat) : M :=
  ifmore pos n (s32 id_ ;; incS ;; o32 (mshl 0x0F 8)).
(** bytepacker.h:695-716 *)
Definition unpack12 (n : nat) : M :=
  let limit := Nat.div n 2 in loop limit unpack12_group ;; unpack12_tail (limit * 2) n.

(** bytepacker.h:718-723: a store of a [uint16_t] through a
    [reinterpret_cast]: on a little-endian machine this stores the low byte,
    then the high byte of the value truncated to 16 bits.  Alignment and
    strict aliasing are not modelled. *)
Definition pack16 (n : nat) : M :=
  loop n (s8 id_ ;; incD ;; s8 (fun x => N.shiftr x 8) ;; incS ;; incD).
(** bytepacker.h:725-730: a load of a [uint16_t]. *)
Definition unpack16 (n : nat) : M :=
  loop n (s32 id_ ;; incS ;; o32 (shl 8) ;; incS ;; incD).

(** bytepacker.h:153-184 *)
Definition packM (bitCount : N) (n : nat) : M :=
  match bitCount with
  | 2 => pack2 n
  | 3 => pack3 n
  | 4 => pack4 n
  | 6 => pack6 n
  | 8 => pack8 n
  | 10 => pack10 n
  | 12 => pack12 n
  | 16 => pack16 n
  | _ => fun _ => Throw
  end.

(** bytepacker.h:186-218 *)
Definition unpackM (bitCount : N) (n : nat) : M :=
  match bitCount with
  | 2 => unpack2 n
  | 3 => unpack3 n
  | 4 => unpack4 n
  | 6 => unpack6 n
  | 8 => unpack8 n
  | 10 => unpack10 n
  | 12 => unpack12 n
  | 16 => unpack16 n
  | _ => fun _ => Throw
  end.

(** The whole call: both pointers start at the beginning of their arrays; the
    result is the new content of the destination array. *)
Definition run (m : M) (src dst : list N) : res (list N) :=
  do q <- m (mkP [] src [] dst); Ok (rev (dl q) ++ dr q).

Definition pack (bitCount : N) (dest symbols : list N) (n : nat) : res (list N) :=
  run (packM bitCount n) symbols dest.

Definition unpack (bitCount : N) (symbols packed : list N) (n : nat) : res (list N) :=
  run (unpackM bitCount n) packed symbols.
