(** Files and input streams as used through std::fstream
    (/repo/dyscostman.cc, /repo/serializable.h). *)
From Verif Require Import Base.
Local Open Scope N_scope.

(** A file: its size and the byte at each offset.  Bytes beyond the end are
    not observable; a write beyond the end leaves a hole that reads as zero. *)
Record file := File { fsize : N; fbyte : N -> N }.

Definition empty_file : file := File 0 (fun _ => 0).

Definition len (bs : list N) : N := N.of_nat (length bs).

(** seekp(off) and write(bs) *)
Definition fwrite (f : file) (off : N) (bs : list N) : file :=
  match bs with
  | [] => f
  | _ =>
    File (N.max (fsize f) (off + len bs))
      (fun i => if (off <=? i) && (i <? off + len bs) then nth (N.to_nat (i - off)) bs 0
                else if i <? fsize f then fbyte f i else 0)
  end.

(** the [n] bytes at [off] *)
Definition bytes (f : file) (off : N) (n : nat) : list N :=
  map (fun k => fbyte f (off + N.of_nat k)) (seq 0 n).

(** truncate to [n] bytes *)
Definition ftruncate (f : file) (n : N) : file := File (N.min (fsize f) n) (fbyte f).

(** the read side of the stream: position and fail bit *)
Record istream := IStream { ipos : N; ifail : bool }.

(** [stream.read(dest, n)]: all bytes, or the stream fails and (part of) the
    destination keeps its indeterminate contents ([None]).  A failed stream does
    not read. *)
Definition iread (f : file) (n : nat) (s : istream) : option (list N) * istream :=
  if ifail s then (None, s)
  else if ipos s + N.of_nat n <=? fsize f
       then (Some (bytes f (ipos s) n), IStream (ipos s + N.of_nat n) false)
       else (None, IStream (fsize f) true).

(** [stream.seekg(off)]: ignored by a failed stream *)
Definition iseek (off : N) (s : istream) : istream := if ifail s then s else IStream off false.

(** little-endian integer of [n] bytes; values are truncated to the width
    (serializable.h:15-37) *)
Fixpoint le (n : nat) (v : N) : list N :=
  match n with
  | O => []
  | S k => v mod 256 :: le k (v / 256)
  end.

Fixpoint of_le (bs : list N) : N :=
  match bs with
  | [] => 0
  | b :: t => b + 256 * of_le t
  end.

(** serializable.h:123-129: the value is indeterminate if the read fails *)
Definition iread_int (f : file) (n : nat) (s : istream) : option N * istream :=
  let '(bs, s') := iread f n s in (option_map of_le bs, s').
