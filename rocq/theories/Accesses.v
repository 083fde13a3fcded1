(** Which members the threads of a storage manager read and write in each step of the model
    of Column.v and System.v, and which mutexes they hold then (/repo/threadeddyscocolumn.cc,
    .h, dyscostman.cc, .h, dyscodatacolumn.cc, dyscoweightcolumn.cc).

    Simplifications: members that are always used together are one location.  What only one
    thread can reach is left out: buffers that a thread makes in operator()
    (threadeddyscocolumn.cc:306-311), the casacore columns ANTENNA1 ... TIME and members that
    are not changed after the constructor (names, settings). *)
From Verif Require Import Base TimeBlockBuffer Column.
Local Open Scope N_scope.

(** _mutex of column [i] (threadeddyscocolumn.h:219); _mutex of the manager (dyscostman.h:393) *)
Inductive mutex := MCol (i : nat) | MMan.

Inductive loc :=
| LRows                    (** _rowsPerBlock, _antennaCount of the manager *)
| LSize                    (** _blockSize, _headerSize of the manager *)
| LBlocks                  (** _nBlocksInFile *)
| LStream                  (** *_fStream and the file *)
| LOffset (i : nat)        (** _offsetInBlock of column [i] (dyscostmancol.h:115) *)
| LShape (i : nat)         (** _shape, _bitsPerSymbol, _antennaCount, _blockSize; the encoder tables; the pointers and sizes in _decoder and _encoder *)
| LReader (i : nat)        (** _packedBlockReadBuffer, _unpackedSymbolReadBuffer; the factors in _decoder, _decodeMaxValue in _encoder *)
| LRandom (i : nat)        (** _rnd (dyscodatacolumn.h:81) *)
| LStop (i : nat)          (** _stopThreads *)
| LThreads (i : nat)       (** _threadGroup *)
| LCache (i : nat)         (** _cache with the isBeingWritten of its items *)
| LItem (i : nat) (b : N)  (** the buffer of the item of block [b] in _cache *)
| LCurrent (i : nat)       (** _currentBlock, _isCurrentBlockChanged, _lastWritten... *)
| LBuffer (i : nat).       (** *_timeBlockBuffer *)

(** [a_write]: written (or destroyed); otherwise only read *)
Record access := Acc { a_loc : loc; a_write : bool; a_locks : list mutex }.

Definition R (l : loc) : access := Acc l false [].
Definition W (l : loc) : access := Acc l true [].
(** with a mutex *)
Definition Rm (m : mutex) (l : loc) : access := Acc l false [m].
Definition Wm (m : mutex) (l : loc) : access := Acc l true [m].

(** The calling thread in column [i], for the instruction [x] that is next.  [first]: it is the
    column that found the block size, or it is not about that.  What prepare() does is as
    without the mutex that it holds. *)
Definition main_acc {A} (i : nat) (first : bool) (x : instr A) : list access :=
  match x with
  (* putValues, threadeddyscocolumn.cc:175-202 *)
  | IPut _ _ => [R LRows; W (LCurrent i); W (LBuffer i)]
  | IPutRow _ _ => [R LRows; W (LCurrent i); W (LBuffer i)]
  | ISet _ _ _ => [R LRows; W (LCurrent i); W (LBuffer i)]
  (* loadBlock 79-104, nBlocksInFile dyscostman.h:238, readCompressedData dyscostman.cc:413-430 *)
  | ILoad _ => [Rm MMan LBlocks; Rm MMan LSize; Rm MMan (LOffset i); Wm MMan LStream; R (LShape i); R LRows;
                W (LReader i); W (LCurrent i); W (LBuffer i)]
  (* storeBlock 146-167: the buffer is moved to a new item *)
  | IStore => [W (LBuffer i); Wm (MCol i) (LCache i); W (LCurrent i); R (LShape i)]
  (* getValues 109-139 *)
  | IGet _ => [R LRows; Rm MMan LBlocks]
  | IWaitNot _ => [Rm (MCol i) (LCache i)]
  | IGetRow _ => [R (LCurrent i)]
  | IRead _ => [R LRows; R (LBuffer i)]
  (* dyscostman.cc:264-277: the first column writes the number of rows; then for each column *)
  | ISetRpb _ _ => (if first then [W LRows] else []) ++ [W LSize; W (LOffset i); R (LShape i)]
  (* stopThreads 50-69 *)
  | IStop => [Rm (MCol i) (LThreads i); Rm (MCol i) (LCache i); Wm (MCol i) (LStop i)]
  | IJoin => [W (LThreads i)]
  (* InitializeAfterNRowsPerBlockIsKnown 252-268, until the first thread is started *)
  | IStart => [R LRows; W (LShape i); W (LReader i); W (LStop i); W (LThreads i)]
  (* prepare() and Prepare, dyscostman.cc:351-376, threadeddyscocolumn.cc:222-240 *)
  | ILock => []
  | IReset => [W (LShape i); W (LReader i); W (LBuffer i); W (LCurrent i)]
  | IPrepared => [R LRows]
  | IUnlock => []
  (* shutdown 39-41 *)
  | IShutdown => [R (LCurrent i)]
  end.

(** What the calling thread does after the threads of column [i] of [n] were started: the rest
    of the threads (threadeddyscocolumn.cc:267-268), the next column (dyscostman.cc:274, in
    System.v any order) and writeHeader (dyscostman.cc:281, 178-211). *)
Definition late_acc {A} (n i : nat) (x : instr A) : list access :=
  match x with
  | IStart => [W (LThreads i); W LSize; R LRows; W LStream] ++ map (fun j => R (LShape j)) (seq 0 n) ++ map (fun j => R (LOffset j)) (seq 0 n)
  | _ => []
  end.

(** An encoding thread of column [i] that is about to go on from [w]. *)
Definition worker_acc {A} (i : nat) (w : wpc A) : list access :=
  match w with
  (* operator() 299-315, from its beginning; initializeEncodeThread, dyscodatacolumn.cc:65-86 *)
  | WTop => [R (LShape i); R LRows; Rm (MCol i) (LShape i); Wm (MCol i) (LRandom i); Rm (MCol i) (LStop i); Wm (MCol i) (LCache i)]
  (* 315-324, after wait() *)
  | WWait | WWoken => [Rm (MCol i) (LStop i); Wm (MCol i) (LCache i)]
  (* encodeAndWrite 271-295; writeCompressedData, dyscostman.cc:432-445 *)
  | WPicked b _ => [R (LItem i b); R (LShape i); R LRows;
                    Wm MMan LBlocks; Rm MMan LSize; Rm MMan (LOffset i); Wm MMan LStream]
  (* 330-333 *)
  | WWritten b => [Wm (MCol i) (LItem i b); Wm (MCol i) (LCache i)]
  | WDone => []
  end.

(** removeColumn of the manager, after the destructor of the column (dyscostman.cc:404-405) *)
Definition remove_acc (n : nat) : list access :=
  [R LRows; W LSize; W LStream] ++ map (fun j => R (LShape j)) (seq 0 n) ++ map (fun j => R (LOffset j)) (seq 0 n).

(** the first line of addColumn (dyscostman.cc:391) *)
Definition add_acc : list access := [R LBlocks].
