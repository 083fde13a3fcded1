(** Model of removing a column from a storage manager with data, as decompress does
    (/repo/dyscostman.cc:399-411, /repo/decompress.cc:44-64). *)
From Verif Require Import Base Floats TimeBlockBuffer File StMan StochasticEncoder TimeBlockEncoders Block Column StoredColumn System.
Local Open Scope N_scope.

(** the columns behind column [i] move up (dyscostman.cc:402-408: erase from the vector) *)
Definition skip (i j : nat) : nat := if (j <? i)%nat then j else S j.
Definition without (i : nat) (cfg : nat -> coldef) : nat -> coldef := fun j => cfg (skip i j).

Section Removal.
Variables (cfg : nat -> coldef) (T : table) (nt : nat).

(** The manager and its remaining columns after removeColumn gave [m].  The columns keep
    their state: caches, loaded blocks, threads. *)
Definition sremove (i : nat) (S : sys cfg T nt) (m : stman) : sys (without i cfg) T nt :=
  Sys (without i cfg) T nt m (fun j => cst cfg T nt S (skip i j)) 0.
End Removal.
