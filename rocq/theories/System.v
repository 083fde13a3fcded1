(** Model of a whole storage manager: [DyscoStMan] with its file, and its columns
    with their encoding threads, as one transition system
    (/repo/dyscostman.cc, /repo/threadeddyscocolumn.cc).

    It puts together [Column] (each column), [StMan] (the file and its geometry),
    and [Block] (the bytes of a block).  What [Column] leaves open about the other
    columns and the file is fixed here: blocks are read from and written to the
    one file, the number of blocks and of rows per block are shared.

    Simplifications: no column is added after the first row was put (addColumn:
    C51); one thread calls the columns.  In initializeRowsPerBlock, the
    columns are initialized after the header was written instead of before, and
    in any order (they have nothing in their caches then). *)
From Verif Require Import Base Floats TimeBlockBuffer BytePacker File StMan.
From Verif Require Import StochasticEncoder TimeBlockEncoders Block Column StoredColumn.
Local Open Scope N_scope.

(** One column: data with one of the three normalizations, or weights; the encoder,
    polarizations, channels and bits per symbol
    (dyscostman.cc:308-343, dyscodatacolumn.h, dyscoweightcolumn.h). *)
Inductive coldef :=
| CRow (e : encoder) (nPol nChan : nat) (bits : N)
| CRF (e : encoder) (nPol nChan : nat) (bits : N)
| CAF (e : encoder) (nPol nChan : nat) (bits : N)
| CWeight (nPol nChan : nat) (bits : N).

Definition codec_of (c : coldef) : codec :=
  match c with
  | CRow e p n _ => row_codec e p n | CRF e p n _ => rf_codec e p n | CAF e p n _ => af_codec e p n
  | CWeight p n b => weight_codec p n b
  end.
Definition af_of (c : coldef) : bool := match c with CAF _ _ _ _ => true | _ => false end.
Definition bits_of (c : coldef) : N := match c with CRow _ _ _ b | CRF _ _ _ b | CAF _ _ _ b | CWeight _ _ b => b end.
Definition nPol_of (c : coldef) : nat := match c with CRow _ p _ _ | CRF _ p _ _ | CAF _ p _ _ | CWeight p _ _ => p end.
Definition nChan_of (c : coldef) : nat := match c with CRow _ _ n _ | CRF _ _ n _ | CAF _ _ n _ | CWeight _ n _ => n end.
Definition kind_of (c : coldef) : kind := match c with CRow _ _ _ _ => KRow | CRF _ _ _ _ => KRF | CAF _ _ _ _ => KAF | CWeight _ _ _ => KWeight end.

(** the column of the manager is this one *)
Definition describes (c : coldef) (col : column) : Prop :=
  co_kind col = kind_of c /\ co_nPol col = N.of_nat (nPol_of c) /\ co_nChan col = N.of_nat (nChan_of c) /\ co_bits col = bits_of c.

Section System.
Variables (cfg : nat -> coldef) (T : table) (nt : nat).

Definition colenv (i : nat) : env :=
  stored_column (codec_of (cfg i)) (af_of (cfg i)) (bits_of (cfg i)) (nPol_of (cfg i) * nChan_of (cfg i)) T nt.

(** The manager and its columns.  [active]: the column whose member function was
    called last.  In the states of the columns, [file] is ghost: what the column
    wrote, or found in the file when it was opened. *)
Record sys := Sys { man : stman; cst : forall i, state (colenv i); active : nat }.

Definition ncol (S : sys) : nat := length (columns (man S)).

(** the calling thread is not in another column *)
Definition others_idle (S : sys) (i : nat) : Prop := forall j, (j < ncol S)%nat -> j <> i -> code (cst S j) = [].

(** no exception, no undefined behaviour so far *)
Definition running (S : sys) : Prop := forall j, (j < ncol S)%nat -> status (cst S j) = Running.

(** [S'] is [S] except for column [i] *)
Definition only (S S' : sys) (i : nat) : Prop := active S' = active S /\ forall j, j <> i -> cst S' j = cst S j.

(** loadBlock with readCompressedData (threadeddyscocolumn.cc:79-104,
    dyscostman.cc:413-430).  [old]: contents of _packedBlockReadBuffer. *)
Definition sys_load (m : stman) (i : nat) (col : column) (old : list N) (s : state (colenv i)) (b : N) : state (colenv i) :=
  let s := if cached (cache s) b then add_fault s (FStale b) else s in
  if b <? nBlocksInFile m then
    match readCompressedData m b col (co_blockSize col) with
    | Ok r =>
      match loadBlock (codec_of (cfg i)) (bits_of (cfg i)) (N.to_nat (rpb s)) (nant s) (block_ants T (rpb s) b)
              (match r with Some y => y | None => old end) (repeat 0 (nSymbols (codec_of (cfg i)) (N.to_nat (rpb s)))) with
      | Ok rows => set_buf s b false (decoded (colenv i) (rpb s) b rows)
      | Throw => set_status s Thrown
      | UB => set_status s Undefined
      end
    | Throw => set_status s Thrown
    | UB => set_status s Undefined
    end
  else set_buf s b false (tb s).

(** instructions of the calling thread that do not concern the manager *)
Definition plain {A} (x : instr A) : bool := match x with ILoad _ | ISetRpb _ _ => false | _ => true end.

(** the member functions that a program calls; row numbers have 32 bits *)
Definition user_call {e} (a : call e) : Prop :=
  match a with Put row _ | Get row => row < 2 ^ 32 | Shutdown => True | _ => False end.

(** Steps of the threads. *)
Inductive smove (S S' : sys) : Prop :=
| ss_main i x c : (i < ncol S)%nat -> running S -> code (cst S i) = x :: c -> mwait (cst S i) = false ->
    plain x = true -> i <> active S \/ others_idle S i ->
    exec None (cst S i) x c = Some (cst S' i) -> man S' = man S -> only S S' i -> smove S S'
| ss_load i b c col old : nth_error (columns (man S)) i = Some col -> running S -> code (cst S i) = ILoad b :: c ->
    mwait (cst S i) = false -> others_idle S i -> len old = co_blockSize col -> Forall (fun v => v < 2 ^ 8) old ->
    cst S' i = sys_load (man S) i col old (set_code (cst S i) c) b -> man S' = man S -> only S S' i -> smove S S'
(* initializeRowsPerBlock called by the active column (dyscostman.cc:261-282) *)
| ss_init i n m c : (i < ncol S)%nat -> running S -> code (cst S i) = ISetRpb n m :: c -> mwait (cst S i) = false ->
    i = active S -> others_idle S i -> initializeRowsPerBlock (man S) n (N.of_nat m) true = Ok (man S') ->
    exec None (cst S i) (ISetRpb n m) c = Some (cst S' i) -> active S' = active S ->
    (forall j, j <> i -> cst S' j = set_code (cst S j) (call_code (OtherInit n m))) -> smove S S'
| ss_init_fail i n m c : (i < ncol S)%nat -> running S -> code (cst S i) = ISetRpb n m :: c -> mwait (cst S i) = false ->
    i = active S -> others_idle S i -> initializeRowsPerBlock (man S) n (N.of_nat m) true = Throw ->
    cst S' i = set_status (set_code (cst S i) c) Thrown -> man S' = man S -> only S S' i -> smove S S'
(* another column follows *)
| ss_follow i n m c : (i < ncol S)%nat -> running S -> code (cst S i) = ISetRpb n m :: c -> mwait (cst S i) = false ->
    i <> active S -> exec None (cst S i) (ISetRpb n m) c = Some (cst S' i) -> man S' = man S -> only S S' i -> smove S S'
(* an encoding thread of column [i]; a write changes the file and the number of blocks *)
| ss_worker i k w y s' w' col : nth_error (columns (man S)) i = Some col -> running S ->
    nth_error (workers (cst S i)) k = Some w ->
    (forall b x, w = WPicked b x -> encodable (colenv i) (rpb (cst S i)) (nant (cst S i)) x = true ->
       enc (colenv i) (rpb (cst S i)) (nant (cst S i)) x y) ->
    wexec y (cst S i) w = Some (s', w') -> cst S' i = set_worker s' k w' ->
    man S' = match w with
             | WPicked b x => if encodable (colenv i) (rpb (cst S i)) (nant (cst S i)) x then writeCompressedData (man S) b col y else man S
             | _ => man S
             end ->
    active S' = active S ->
    (forall j, j <> i -> cst S' j = set_file (cst S j) (file (cst S j)) (nBlocksInFile (man S'))) -> smove S S'.

(** A call of the program.  After a first column is shut down (by the destructor of the
    manager) only the others are shut down. *)
Definition scall (S S' : sys) (i : nat) (a : call (colenv i)) : Prop :=
  (i < ncol S)%nat /\ running S /\ (forall j, (j < ncol S)%nat -> code (cst S j) = []) /\
  closed (cst S i) = false /\ user_call a /\ (a <> Shutdown -> forall j, (j < ncol S)%nat -> closed (cst S j) = false) /\
  cst S' i = set_code (cst S i) (call_code a) /\ man S' = man S /\ active S' = i /\ (forall j, j <> i -> cst S' j = cst S j).

(** Spurious wake-ups. *)
Inductive swake (S S' : sys) : Prop :=
| sw_worker i k : (i < ncol S)%nat -> nth_error (workers (cst S i)) k = Some WWait -> cst S' i = set_worker (cst S i) k WWoken ->
    man S' = man S -> only S S' i -> swake S S'
| sw_main i : (i < ncol S)%nat -> mwait (cst S i) = true -> cst S' i = set_mwait (cst S i) false ->
    man S' = man S -> only S S' i -> swake S S'.

Inductive sstep (S S' : sys) : Prop :=
| ss_move : smove S S' -> sstep S S'
| ss_call i (a : call (colenv i)) : scall S S' i a -> sstep S S'
| ss_wake : swake S S' -> sstep S S'.

(** A new table (dyscostman.cc:163-176): an empty file, new columns. *)
Definition snew (m : stman) : sys := Sys m (fun i => fresh (colenv i)) 0.

(** what the file of a manager holds for a column *)
Definition disk (m : stman) (col : column) (b : N) : option (list N) :=
  if b <? nBlocksInFile m then
    match readCompressedData m b col (co_blockSize col) with Ok (Some y) => Some y | _ => None end
  else None.

(** An opened table (dyscostman.cc:284-376): the columns start their threads. *)
Definition sopen (m : stman) : sys :=
  Sys m (fun i => opened (colenv i) (match nth_error (columns m) i with Some col => disk m col | None => fun _ => None end)
           (nBlocksInFile m) (rowsPerBlock m) (N.to_nat (antennaCount m))) 0.

Inductive sreach (S0 : sys) : sys -> Prop :=
| sreach_refl : sreach S0 S0
| sreach_step S S' : sreach S0 S -> sstep S S' -> sreach S0 S'.
End System.
