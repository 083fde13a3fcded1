(** Model of [ThreadedDyscoColumn] (/repo/threadeddyscocolumn.cc, .h,
    threadgroup.h) with its encoding threads, as a transition system.

    Each step is one critical section of the column mutex, or one operation of
    the calling thread on its own members, or one encoding followed by one
    write of the file.  Encoding works on a buffer that was moved into the cache
    (threadeddyscocolumn.cc:150), so no other thread sees it; writing and reading
    the file are atomic because of the manager mutex (dyscostman.cc:413-445).
    A thread waiting on [_cacheChangedCondition] runs again after notify_all, or
    spontaneously (spurious wake-up).

    Simplifications: the packed bytes of a block are an abstract type with a
    relation [enc] (encoding is randomised) and a function [dec]; the region of
    this column in the file is a partial map from blocks to bytes (C28 proves
    that the regions are disjoint).  Symbols and meta data of rows that a short
    block does not have are left over from earlier blocks in the code; here [enc]
    may relate a short block to any bytes.  Times are compared as integers
    (no NaN).  Only this column's threads are modelled; what other columns of
    the same manager do is [step_bump] and [OtherInit]. *)
From Verif Require Import Base TimeBlockBuffer.
Local Open Scope N_scope.

(** What a column depends on. *)
Record env := Env {
  data : Type;                             (** one sample *)
  bytes : Type;                            (** one packed block *)
  nSamp : nat;                             (** polarizations times channels *)
  enc : N -> nat -> tbb data -> bytes -> Prop;  (** rows per block, antennas, buffer, a possible result *)
  dec : N -> nat -> N -> bytes -> list (list data);  (** rows per block, antennas, block: the rows that loadBlock decodes *)
  ants : N -> nat * nat;                   (** columns ANTENNA1, ANTENNA2 *)
  time : N -> Z; field : N -> Z; ddid : N -> Z;
  nthreads : nat;                          (** defaultThreadCount() *)
  af : bool }.                             (** encoder indexes by antenna *)

(** threadeddyscocolumn.h:204-206 *)
Definition maxCache (e : env) : nat := (nthreads e * 12 / 10 + 1)%nat.

(** numeric_limits<size_t>::max(), threadeddyscocolumn.cc:239 *)
Definition noBlock : N := 2 ^ 64 - 1.

(** The encoders index the samples of every row of the buffer, the packed buffer
    has room for [rpb] rows, the antenna based one indexes by antenna;
    otherwise memory is accessed out of bounds (rowtimeblockencoder.cc:74-99,
    rftimeblockencoder.cc, aftimeblockencoder.cc:341-400, weightblockencoder.h:40-68). *)
Definition encodable (e : env) (rpb : N) (nant : nat) (b : tbb (data e)) : bool :=
  (N.of_nat (length b) <=? rpb) &&
  forallb (fun r => (length (visibilities r) =? nSamp e)%nat &&
                    (negb (af e) || ((antenna1 r <? nant) && (antenna2 r <? nant)))%nat) b.

(** Where an encoding thread is in operator() (threadeddyscocolumn.cc:299-336). *)
Inductive wpc (A : Type) :=
| WTop                              (** about to test [!_stopThreads], line 313 *)
| WWait                             (** in wait(), line 317 *)
| WWoken                            (** returning from wait(), line 317 *)
| WPicked (b : N) (x : tbb A)       (** lock released, line 326 *)
| WWritten (b : N)                  (** about to take the lock again, line 330 *)
| WDone.                            (** operator() has returned *)
Arguments WTop {A}. Arguments WWait {A}. Arguments WWoken {A}. Arguments WPicked {A}.
Arguments WWritten {A}. Arguments WDone {A}.

(** What the calling thread still has to do. *)
Inductive instr (A : Type) :=
| IPut (row : N) (d : list A)       (** putValues, lines 175-199 *)
| IPutRow (row : N) (d : list A)    (** putValues, lines 201-216 *)
| ISet (r row : N) (d : list A)     (** putValues, lines 213-217 *)
| ILoad (b : N)                     (** loadBlock, lines 79-104 *)
| IStore                            (** storeBlock, lines 146-167 *)
| IGet (row : N)                    (** getValues, lines 109-119 *)
| IWaitNot (b : N)                  (** getValues, lines 123-130 *)
| IGetRow (row : N)                 (** getValues, lines 132-135 *)
| IRead (row : N)                   (** getValues, line 139 *)
| ISetRpb (n : N) (m : nat)         (** dyscostman.cc:264-272 *)
| IStop                             (** stopThreads, lines 51-64 *)
| IJoin                             (** stopThreads, lines 67-68 *)
| IStart                            (** InitializeAfterNRowsPerBlockIsKnown, lines 263-268 *)
| ILock                             (** dyscostman.cc:352 *)
| IReset                            (** Prepare, lines 226-239 *)
| IPrepared                         (** dyscostman.cc:374-375 *)
| IUnlock                           (** dyscostman.cc:376 *)
| IShutdown.                        (** shutdown, lines 39-41 *)
Arguments IPut {A}. Arguments IPutRow {A}. Arguments ISet {A}. Arguments ILoad {A}. Arguments IStore {A}.
Arguments IGet {A}. Arguments IWaitNot {A}. Arguments IGetRow {A}. Arguments IRead {A}. Arguments ISetRpb {A}.
Arguments IStop {A}. Arguments IJoin {A}. Arguments IStart {A}. Arguments ILock {A}. Arguments IReset {A}.
Arguments IPrepared {A}. Arguments IUnlock {A}. Arguments IShutdown {A}.

(** What getValues gave: zeros (lines 113, 118), or the samples copied (an empty
    list if the row has none: the destination keeps its old contents). *)
Inductive answer (A : Type) := AZero | AVals (v : list A).
Arguments AZero {A}. Arguments AVals {A}.

(** [Thrown]: an exception left the column.  [Undefined]: undefined behaviour. *)
Inductive status_t := Running | Thrown | Undefined.

(** Ghost: noteworthy events that the code does not detect. *)
Inductive fault :=
| FStale (b : N)        (** loadBlock of a block that is still in the cache *)
| FLong (n : N)         (** rows per block learnt smaller than the rows buffered, or 0 *)
| FReset.               (** Prepare while rows were not stored *)

Record state (e : env) := State {
  (* shared, protected by the manager mutex *)
  file : N -> option (bytes e);          (** this column's part of the file *)
  nblk : N;                              (** _nBlocksInFile *)
  mgr : bool;                            (** manager mutex held by the calling thread in prepare() *)
  rpb : N; nant : nat;                   (** _rowsPerBlock, _antennaCount; fixed while threads run *)
  (* shared, protected by the column mutex *)
  cache : list (N * (tbb (data e) * bool));   (** _cache: block, buffer, isBeingWritten; in key order *)
  stopF : bool;                          (** _stopThreads *)
  workers : list (wpc (data e));         (** _threadGroup *)
  (* the calling thread *)
  cur : N; changed : bool;               (** _currentBlock, _isCurrentBlockChanged *)
  tb : tbb (data e);                     (** *_timeBlockBuffer *)
  keyrow : N;                            (** row of _lastWrittenTime, ...Field, ...DataDescId *)
  code : list (instr (data e)); mwait : bool;  (** what to do; whether in wait() *)
  outs : list (N * answer (data e));     (** results of getValues, newest first *)
  status : status_t;
  closed : bool;                         (** shutdown() was called *)
  (* ghost *)
  last : N -> option (tbb (data e));     (** contents most recently given to storeBlock *)
  val : N -> option (list (data e));     (** contents of rows: last put, or as found in the file *)
  faults : list fault }.

Arguments file {e}. Arguments nblk {e}. Arguments mgr {e}. Arguments rpb {e}. Arguments nant {e}.
Arguments cache {e}. Arguments stopF {e}. Arguments workers {e}. Arguments cur {e}. Arguments changed {e}.
Arguments tb {e}. Arguments keyrow {e}. Arguments code {e}. Arguments mwait {e}. Arguments outs {e}.
Arguments status {e}. Arguments closed {e}. Arguments last {e}. Arguments val {e}. Arguments faults {e}.

Definition upd_map {V} (m : N -> option V) (k : N) (v : V) : N -> option V :=
  fun k' => if k' =? k then Some v else m k'.

(** std::map::insert of a new key (threadeddyscocolumn.cc:158); an existing
    key would keep its old value, which line 154 excludes *)
Fixpoint insert {V} (k : N) (v : V) (c : list (N * V)) : list (N * V) :=
  match c with
  | [] => [(k, v)]
  | (k', v') :: t => if k <? k' then (k, v) :: c else if k =? k' then c else (k', v') :: insert k v t
  end.

(** std::map::find, erase *)
Definition cached {V} (c : list (N * V)) (k : N) : bool := existsb (fun p => fst p =? k) c.
Definition erase {V} (c : list (N * V)) (k : N) : list (N * V) := filter (fun p => negb (fst p =? k)) c.

(** threadeddyscocolumn.cc:340-345 *)
Fixpoint isWriteItemAvailable {A} (c : list (N * (tbb A * bool))) : option (N * tbb A) :=
  match c with
  | [] => None
  | (b, (x, w)) :: t => if w then isWriteItemAvailable t else Some (b, x)
  end.

(** threadeddyscocolumn.cc:324 *)
Definition markWritten {A} (c : list (N * (tbb A * bool))) (b : N) : list (N * (tbb A * bool)) :=
  map (fun p => if fst p =? b then (fst p, (fst (snd p), true)) else p) c.

(** notify_all: every waiting thread becomes runnable *)
Definition wake {A} (w : wpc A) : wpc A := match w with WWait => WWoken | _ => w end.

(** One setter for each group of members that the steps change. *)
Definition set_code {e} (s : state e) c := State e (file s) (nblk s) (mgr s) (rpb s) (nant s) (cache s) (stopF s) (workers s)
  (cur s) (changed s) (tb s) (keyrow s) c (mwait s) (outs s) (status s) (closed s) (last s) (val s) (faults s).
Definition set_mwait {e} (s : state e) w := State e (file s) (nblk s) (mgr s) (rpb s) (nant s) (cache s) (stopF s) (workers s)
  (cur s) (changed s) (tb s) (keyrow s) (code s) w (outs s) (status s) (closed s) (last s) (val s) (faults s).
Definition set_status {e} (s : state e) x := State e (file s) (nblk s) (mgr s) (rpb s) (nant s) (cache s) (stopF s) (workers s)
  (cur s) (changed s) (tb s) (keyrow s) (code s) (mwait s) (outs s) x (closed s) (last s) (val s) (faults s).
Definition set_file {e} (s : state e) f n := State e f n (mgr s) (rpb s) (nant s) (cache s) (stopF s) (workers s)
  (cur s) (changed s) (tb s) (keyrow s) (code s) (mwait s) (outs s) (status s) (closed s) (last s) (val s) (faults s).
Definition set_mgr {e} (s : state e) m := State e (file s) (nblk s) m (rpb s) (nant s) (cache s) (stopF s) (workers s)
  (cur s) (changed s) (tb s) (keyrow s) (code s) (mwait s) (outs s) (status s) (closed s) (last s) (val s) (faults s).
Definition set_rpb {e} (s : state e) r n := State e (file s) (nblk s) (mgr s) r n (cache s) (stopF s) (workers s)
  (cur s) (changed s) (tb s) (keyrow s) (code s) (mwait s) (outs s) (status s) (closed s) (last s) (val s) (faults s).
Definition set_threads {e} (s : state e) c st w := State e (file s) (nblk s) (mgr s) (rpb s) (nant s) c st w
  (cur s) (changed s) (tb s) (keyrow s) (code s) (mwait s) (outs s) (status s) (closed s) (last s) (val s) (faults s).
Definition set_buf {e} (s : state e) c ch b := State e (file s) (nblk s) (mgr s) (rpb s) (nant s) (cache s) (stopF s) (workers s)
  c ch b (keyrow s) (code s) (mwait s) (outs s) (status s) (closed s) (last s) (val s) (faults s).
Definition set_key {e} (s : state e) k := State e (file s) (nblk s) (mgr s) (rpb s) (nant s) (cache s) (stopF s) (workers s)
  (cur s) (changed s) (tb s) k (code s) (mwait s) (outs s) (status s) (closed s) (last s) (val s) (faults s).
Definition add_out {e} (s : state e) r a := State e (file s) (nblk s) (mgr s) (rpb s) (nant s) (cache s) (stopF s) (workers s)
  (cur s) (changed s) (tb s) (keyrow s) (code s) (mwait s) ((r, a) :: outs s) (status s) (closed s) (last s) (val s) (faults s).
Definition set_closed {e} (s : state e) := State e (file s) (nblk s) (mgr s) (rpb s) (nant s) (cache s) (stopF s) (workers s)
  (cur s) (changed s) (tb s) (keyrow s) (code s) (mwait s) (outs s) (status s) true (last s) (val s) (faults s).
Definition set_last {e} (s : state e) l := State e (file s) (nblk s) (mgr s) (rpb s) (nant s) (cache s) (stopF s) (workers s)
  (cur s) (changed s) (tb s) (keyrow s) (code s) (mwait s) (outs s) (status s) (closed s) l (val s) (faults s).
Definition set_val {e} (s : state e) v := State e (file s) (nblk s) (mgr s) (rpb s) (nant s) (cache s) (stopF s) (workers s)
  (cur s) (changed s) (tb s) (keyrow s) (code s) (mwait s) (outs s) (status s) (closed s) (last s) v (faults s).
Definition add_fault {e} (s : state e) f := State e (file s) (nblk s) (mgr s) (rpb s) (nant s) (cache s) (stopF s) (workers s)
  (cur s) (changed s) (tb s) (keyrow s) (code s) (mwait s) (outs s) (status s) (closed s) (last s) (val s) (f :: faults s).

(** _cacheChangedCondition.notify_all() *)
Definition notify {e} (s : state e) : state e :=
  set_mwait (set_threads s (cache s) (stopF s) (map wake (workers s))) false.

(** time, field and data description of a row differ from those of another
    (threadeddyscocolumn.cc:195-196) *)
Definition keys_differ (e : env) (r r' : N) : bool :=
  negb (time e r =? time e r')%Z || negb (field e r =? field e r')%Z || negb (ddid e r =? ddid e r')%Z.

(** SetData on the current buffer, and [_isCurrentBlockChanged = true]
    (threadeddyscocolumn.cc:201, 213-217) *)
Definition put_buffer {e} (s : state e) (r row : N) (d : list (data e)) : state e :=
  match SetData (nSamp e) (tb s) (N.to_nat r) (fst (ants e row)) (snd (ants e row)) d with
  | Ok b => set_val (set_buf s (cur s) true b) (upd_map (val s) row (firstn (nSamp e) d))
  | Throw => set_status s Thrown
  | UB => set_status s Undefined
  end.

(** the buffer that loadBlock fills (threadeddyscocolumn.cc:94-100) *)
Definition decoded (e : env) (rpb : N) (b : N) (rows : list (list (data e))) : tbb (data e) :=
  map (fun p => DRow (fst (ants e (b * rpb + N.of_nat (fst p)))) (snd (ants e (b * rpb + N.of_nat (fst p)))) (snd p))
      (combine (seq 0 (length rows)) rows).

(** [junk]: what readCompressedData leaves when this column has nothing in the
    file at that place: [Some rows] (old contents of the read buffer, or bytes of
    a gap in the file), or [None], a read error (dyscostman.cc:422-429). *)
Definition load {e} (junk : option (list (list (data e)))) (s : state e) (b : N) : state e :=
  let s := if cached (cache s) b then add_fault s (FStale b) else s in
  if b <? nblk s then
    match file s b with
    | Some y => set_buf s b false (decoded e (rpb s) b (dec e (rpb s) (nant s) b y))
    | None => match junk with
              | Some rows => set_buf s b false (decoded e (rpb s) b rows)
              | None => set_status s Thrown
              end
    end
  else set_buf s b false (tb s).

(** One instruction of the calling thread; [c] is the rest of its code.
    [None]: not possible now (join). *)
Definition exec {e} (junk : option (list (list (data e)))) (s : state e) (i : instr (data e)) (c : list (instr (data e)))
  : option (state e) :=
  let s0 := set_code s c in
  match i with
  | IPut row d =>
      if rpb s =? 0 then
        if Empty (tb s) then Some (put_buffer (set_key (set_buf s0 0 (changed s) (tb s)) row) row row d)
        else if keys_differ e row (keyrow s)
        then Some (set_code s (ISetRpb row (MaxAntennaIndex (tb s) + 1)%nat :: IStop :: IStart :: IPutRow row d :: c))
        else Some (put_buffer s0 row row d)
      else Some (set_code s (IPutRow row d :: c))
  | IPutRow row d =>
      if rpb s =? 0 then Some (put_buffer s0 row row d)
      else let b := row / rpb s in
        if b =? cur s then Some (set_code s (ISet (row mod rpb s) row d :: c))
        else Some (set_code s ((if changed s then [IStore] else []) ++ ILoad b :: ISet (row mod rpb s) row d :: c))
  | ISet r row d => Some (put_buffer s0 r row d)
  | ILoad b => Some (load junk s0 b)
  | IStore =>
      if (maxCache e <=? length (cache s))%nat || cached (cache s) (cur s) then Some (set_mwait s true)
      else Some (notify (set_last (set_buf (set_threads s0 (insert (cur s) (tb s, false) (cache s)) (stopF s) (workers s))
                                           (cur s) false [])
                                  (upd_map (last s) (cur s) (tb s))))
  | IGet row =>
      if rpb s =? 0 then Some (add_out s0 row AZero)
      else let b := row / rpb s in
        if nblk s <=? b then Some (add_out s0 row AZero)
        else Some (set_code s (IWaitNot b :: IGetRow row :: c))
  | IWaitNot b => if cached (cache s) b then Some (set_mwait s true) else Some s0
  | IGetRow row =>
      let b := row / rpb s in
      if b =? cur s then Some (set_code s (IRead row :: c))
      else Some (set_code s ((if changed s then [IStore] else []) ++ ILoad b :: IRead row :: c))
  | IRead row =>
      match GetData (tb s) (N.to_nat (row mod rpb s)) with
      | Ok v => Some (add_out s0 row (AVals v))
      | Throw => Some (set_status s0 Thrown)
      | UB => Some (set_status s0 Undefined)
      end
  | ISetRpb n m =>
      let s1 := set_rpb s0 n m in
      Some (if (N.of_nat (length (tb s)) <=? n) && negb (n =? 0) then s1 else add_fault s1 (FLong n))
  | IStop =>
      match workers s with
      | [] => match cache s with [] => Some s0 | _ => Some (set_status s0 Thrown) end
      | _ => match cache s with
             | [] => Some (notify (set_threads (set_code s (IJoin :: c)) [] true (workers s)))
             | _ => Some (set_mwait s true)
             end
      end
  | IJoin =>
      if forallb (fun w => match w with WDone => true | _ => false end) (workers s)
      then Some (set_threads s0 (cache s) (stopF s) []) else None
  | IStart => Some (set_threads s0 (cache s) false (workers s ++ repeat WTop (nthreads e)))
  | ILock => Some (set_mgr s0 true)
  | IReset =>
      let s1 := set_buf s0 noBlock (changed s) [] in
      Some (if changed s then add_fault s1 FReset else s1)
  | IPrepared => Some (if rpb s =? 0 then s0 else set_code s (IStop :: IStart :: c))
  | IUnlock => Some (set_mgr s0 false)
  | IShutdown => Some (set_closed (set_code s ((if changed s then [IStore] else []) ++ IStop :: c)))
  end.

(** One step of an encoding thread: the new state with this thread's new place. *)
Definition pick {e} (s : state e) : option (state e * wpc (data e)) :=
  match isWriteItemAvailable (cache s) with
  | Some (b, x) => Some (set_threads s (markWritten (cache s) b) (stopF s) (workers s), WPicked b x)
  | None => None
  end.

(** [y]: the bytes the encoder produces; [None] as second result: no step possible *)
Definition wexec {e} (y : bytes e) (s : state e) (w : wpc (data e)) : option (state e * wpc (data e)) :=
  match w with
  | WTop => if stopF s then Some (s, WDone)
            else match pick s with Some r => Some r | None => Some (s, WWait) end
  | WWait => None
  | WWoken => match pick s with
              | Some r => Some r
              | None => Some (s, if stopF s then WDone else WWait)
              end
  | WPicked b x =>
      if encodable e (rpb s) (nant s) x then
        if mgr s then None
        else Some (set_file s (upd_map (file s) b y) (if nblk s <=? b then (b + 1) mod 2 ^ 64 else nblk s), WWritten b)
      else Some (set_status s Undefined, WDone)
  | WWritten b => Some (notify (set_threads s (erase (cache s) b) (stopF s) (workers s)), WTop)
  | WDone => None
  end.

Definition set_worker {e} (s : state e) (k : nat) (w : wpc (data e)) : state e :=
  set_threads s (cache s) (stopF s) (upd (workers s) k w).

(** Whatever is read, loadBlock decodes [rpb] rows of [nSamp] samples
    (threadeddyscocolumn.cc:81-100).  A read error is always allowed here; in the
    code only if [b + 1] is not the number of blocks in the file (dyscostman.cc:425). *)
Definition junk_ok {e} (s : state e) (junk : option (list (list (data e)))) : Prop :=
  match junk with
  | Some rows => N.of_nat (length rows) = rpb s /\ Forall (fun v => length v = nSamp e) rows
  | None => True
  end.

(** Steps of this column's threads. *)
Inductive istep {e} (s : state e) : state e -> Prop :=
| step_main junk i c s' : status s = Running -> code s = i :: c -> mwait s = false ->
    exec junk s i c = Some s' -> junk_ok s junk -> istep s s'
| step_worker k w y s' w' : status s = Running -> nth_error (workers s) k = Some w ->
    (forall b x, w = WPicked b x -> encodable e (rpb s) (nant s) x = true -> enc e (rpb s) (nant s) x y) ->
    wexec y s w = Some (s', w') -> istep s (set_worker s' k w').

(** Calls made by the program when no other call is in progress; row numbers
    have 32 bits (casacore::uInt). *)
Inductive call (e : env) :=
| Put (row : N) (d : list (data e))        (** putValues *)
| Get (row : N)                            (** getValues *)
| Shutdown                                 (** destructor *)
| AddColumn                                (** addColumn of the manager, dyscostman.cc:390-397 *)
| OtherInit (n : N) (m : nat).             (** another column found the block size *)
Arguments Put {e}. Arguments Get {e}. Arguments Shutdown {e}. Arguments AddColumn {e}. Arguments OtherInit {e}.

Definition call_ok {e} (s : state e) (a : call e) : Prop :=
  match a with
  | Put row _ | Get row => row < 2 ^ 32
  | Shutdown => True
  | AddColumn => nblk s = 0
  | OtherInit n _ => rpb s = 0
  end.

Definition call_code {e} (a : call e) : list (instr (data e)) :=
  match a with
  | Put row d => [IPut row d]
  | Get row => [IGet row]
  | Shutdown => [IShutdown]
  | AddColumn => [ILock; IStop; IReset; IPrepared; IUnlock]
  | OtherInit n m => [ISetRpb n m; IStop; IStart]
  end.

Inductive step {e} (s : state e) : state e -> Prop :=
| step_int s' : istep s s' -> step s s'
| step_call a : status s = Running -> code s = [] -> closed s = false -> call_ok s a -> step s (set_code s (call_code a))
| step_spurious k : nth_error (workers s) k = Some WWait -> step s (set_worker s k WWoken)
| step_spurious_main : mwait s = true -> step s (set_mwait s false)
| step_bump n : nblk s <= n -> n < 2 ^ 64 -> mgr s = false -> step s (set_file s (file s) n).

(** A column just made: no threads, nothing in the file. *)
Definition fresh (e : env) : state e :=
  State e (fun _ => None) 0 false 0 0 [] false [] noBlock false [] 0 [] false [] Running false
    (fun _ => None) (fun _ => None) [].

(** A column of an opened table (dyscostman.cc:284-343 and prepare()). *)
Definition opened (e : env) (f : N -> option (bytes e)) (nb rp : N) (na : nat) : state e :=
  State e f nb false rp na [] false (repeat WTop (nthreads e)) noBlock false [] 0 [] false [] Running false
    (fun _ => None)
    (fun row => match f (row / rp) with
                | Some y => nth_error (dec e rp na (row / rp) y) (N.to_nat (row mod rp))
                | None => None
                end) [].

Inductive starts {e} : state e -> Prop :=
| starts_fresh : starts (fresh e)
| starts_opened f nb rp na : rp <> 0 -> nb < 2 ^ 64 -> (forall b, f b <> None -> b < nb) -> starts (opened e f nb rp na).

Inductive reach {e} (s0 : state e) : state e -> Prop :=
| reach_refl : reach s0 s0
| reach_step s s' : reach s0 s -> step s s' -> reach s0 s'.
