(** Property theorems C33-C41, C51, C52: ThreadedDyscoColumn.  Statements only. *)
From Verif Require Import Base TimeBlockBuffer TbbSpec Column ColumnSpec ColumnReach ColumnTerm ColumnData ColumnOrder ColumnMore ColumnTraces.
Local Open Scope N_scope.

(** ** C33 *)
Theorem C33_cache_safe : forall e (s0 s : state e), (nthreads e <> 0)%nat -> starts s0 -> reach s0 s -> status s = Running ->
  NoDup (map fst (cache s)) /\ (length (cache s) <= maxCache e)%nat /\ NoDup (busy (workers s)) /\
  (forall b x, In (WPicked b x) (workers s) -> In (b, (x, true)) (cache s)) /\
  (forall b x, last s b = Some x ->
     (exists w, In (b, (x, w)) (cache s)) \/ (exists y, file s b = Some y /\ enc e (rpb s) (nant s) x y)).
Proof. exact @cache_safe. Qed.
Print Assumptions C33_cache_safe.

Example C33_example : let s := after 1 1 l35 in reach (fresh (toy 1 1)) s /\ status s = Running /\
  cache s = [(0, ([DRow 0 1 [5]], false))] /\ last s 0 = Some [DRow 0 1 [5]].
Proof. intros s. split; [apply trace35|]. repeat (split; [now vm_compute|]). now vm_compute. Qed.

(** ** C34 *)
Theorem C34_on_disk : forall e (s0 s : state e), (nthreads e <> 0)%nat -> starts s0 -> reach s0 s -> status s = Running ->
  closed s = true -> code s = [] ->
  cache s = [] /\ workers s = [] /\
  (forall b x, last s b = Some x -> exists y, file s b = Some y /\ enc e (rpb s) (nant s) x y) /\
  (forall b, last s b = None -> file s b = file s0 b).
Proof. exact @on_disk. Qed.
Print Assumptions C34_on_disk.

Theorem C34_rows_on_disk : forall e (s0 s : state e), (nthreads e <> 0)%nat -> rows_kept e -> starts s0 -> reach s0 s -> status s = Running ->
  closed s = true -> code s = [] -> faults s = [] -> rpb s <> 0 -> forall row d, val s row = Some d ->
  exists y v, file s (row / rpb s) = Some y /\
    nth_error (dec e (rpb s) (nant s) (row / rpb s) y) (N.to_nat (row mod rpb s)) = Some v /\
    coded e (rpb s) (nant s) (row / rpb s) (N.to_nat (row mod rpb s)) d v.
Proof. exact @rows_on_disk. Qed.
Print Assumptions C34_rows_on_disk.

Example C34_example : let s := after 2 1 l36ok in reach (fresh (toy 2 1)) s /\ status s = Running /\ closed s = true /\ code s = [] /\
  faults s = [] /\ rpb s = 2 /\ val s 1 = Some [6] /\ file s 0 = Some [[8]; [6]] /\ file s 1 = Some [[7]].
Proof. exact trace36ok. Qed.

(** ** C35 *)
Theorem C35_reads_back : forall e (s0 s s' : state e) row a d, (nthreads e <> 0)%nat -> rows_kept e -> starts s0 -> reach s0 s ->
  status s = Running -> faults s = [] -> istep s s' -> outs s' = (row, a) :: outs s -> val s row = Some d ->
  (a = AZero /\ (rpb s = 0 \/ nblk s <= row / rpb s)) \/
  (exists v, a = AVals v /\ coded e (rpb s) (nant s) (row / rpb s) (N.to_nat (row mod rpb s)) d v).
Proof. exact @reads_back. Qed.
Print Assumptions C35_reads_back.

Theorem C35_read_defined : forall e (s0 s s' : state e) row d junk c, (nthreads e <> 0)%nat -> rows_kept e -> starts s0 -> reach s0 s ->
  status s = Running -> faults s = [] -> val s row = Some d -> code s = IRead row :: c -> exec junk s (IRead row) c = Some s' -> status s' = Running.
Proof. exact @read_defined. Qed.
Print Assumptions C35_read_defined.

Example C35_example : let s := after 1 1 l35ok in reach (fresh (toy 1 1)) s /\ status s = Running /\ faults s = [] /\ val s 0 = Some [5] /\
  exists s', istep s s' /\ outs s' = (0, AVals [5]) :: outs s.
Proof. exact trace35ok. Qed.

(** Full statement (false): reading a row that was put gives its contents. *)
Theorem C35_reads_back_refuted :
  exists (s : state (toy 1 1)), reach (fresh (toy 1 1)) s /\ status s = Running /\ faults s = [] /\ val s 0 = Some [5] /\
  exists s', istep s s' /\ outs s' = (0, AZero) :: outs s.
Proof. exact (ex_intro _ _ trace35). Qed.
Print Assumptions C35_reads_back_refuted.

(** ** C36 *)
Theorem C36_only_put_rows_change : forall e (s s' : state e) row, step s s' -> val s' row <> val s row ->
  exists d c, val s' row = Some (firstn (nSamp e) d) /\
    (code s = IPut row d :: c \/ code s = IPutRow row d :: c \/ exists r, code s = ISet r row d :: c).
Proof. exact @val_changes. Qed.
Print Assumptions C36_only_put_rows_change.

(** The premise [faults s = []] of C34 and C35 fails only in these cases. *)
Theorem C36_fault_causes : forall e (s0 s s' : state e) f, (nthreads e <> 0)%nat -> starts s0 -> reach s0 s -> step s s' -> faults s' = f :: faults s ->
  match f with
  | FStale b => exists row d c, code s = ILoad b :: ISet (row mod rpb s) row d :: c /\ b = row / rpb s /\ exists x w, In (b, (x, w)) (cache s)
  | FLong n => exists m c, code s = ISetRpb n m :: c /\ (n = 0 \/ n < N.of_nat (length (tb s)))
  | FReset => exists c, code s = IReset :: c /\ changed s = true
  end.
Proof. exact @fault_causes. Qed.
Print Assumptions C36_fault_causes.

Example C36_example : let s := after 2 1 l36ok in faults s = [] /\ val s 0 = Some [8] /\ val s 1 = Some [6] /\ file s 0 = Some [[8]; [6]] /\
  faults (after 2 1 l36) = [FStale 0].
Proof. repeat split. Qed.

(** Full statement (false): the other rows of a block keep their values, also if the block is still in the cache. *)
Theorem C36_lost_update_refuted :
  exists s : state (toy 2 1), reach (fresh (toy 2 1)) s /\ status s = Running /\ closed s = true /\ code s = [] /\
    rpb s = 2 /\ val s 1 = Some [6] /\ file s 0 = Some [[8]].
Proof. exact (ex_intro _ _ trace36). Qed.
Print Assumptions C36_lost_update_refuted.

(** ** C37 *)
Theorem C37_calls_finish : forall e (s0 s : state e) a, (nthreads e <> 0)%nat -> starts s0 ->
  (forall rp na x, encodable e rp na x = true -> exists y, enc e rp na x y) -> inhabited (bytes e) ->
  reach s0 s -> status s = Running -> code s = [] -> closed s = false -> call_ok s a ->
  (a = AddColumn -> cache s = []) -> finishes (set_code s (call_code a)).
Proof. exact @calls_finish. Qed.
Print Assumptions C37_calls_finish.

Theorem C37_progress : forall e (s0 s : state e), (nthreads e <> 0)%nat -> starts s0 ->
  (forall rp na x, encodable e rp na x = true -> exists y, enc e rp na x y) -> inhabited (bytes e) ->
  reach s0 s -> status s = Running -> code s <> [] -> (mgr s = false \/ cache s = []) -> exists s', istep s s'.
Proof. exact @progress. Qed.
Print Assumptions C37_progress.

Theorem C37_no_infinite_run : forall e, well_founded (fun s' s : state e => istep s s').
Proof. exact @istep_wf. Qed.
Print Assumptions C37_no_infinite_run.

Example C37_example : let s := after 1 1 two_blocks in reach (fresh (toy 1 1)) s /\ status s = Running /\ code s = [] /\ closed s = false /\
  (forall rp na x, encodable (toy 1 1) rp na x = true -> exists y, enc (toy 1 1) rp na x y).
Proof. intros s. split; [now apply after_reach; vm_compute|]. do 3 (split; [now vm_compute|]). apply toy_enc. Qed.

(** ** C38 *)
(** Full statement (false): prepare always returns.  It never does when a block is cached. *)
Theorem C38_add_column_refuted :
  exists s : state (toy 1 1), reach (fresh (toy 1 1)) s /\ code s = [IStop; IReset; IPrepared; IUnlock] /\
  forall s', reach s s' -> status s' = Running /\ code s' = code s /\ code s' <> [].
Proof.
  exact (ex_intro _ (after 1 1 l38) (conj (proj1 trace38) (conj (proj2 (proj2 trace38)) (fun s' => stuck_forever _ s' (proj1 (proj2 trace38)))))).
Qed.
Print Assumptions C38_add_column_refuted.

Theorem C38_stuck_forever : forall e (s s' : state e), stuck s -> reach s s' -> status s' = Running /\ code s' = code s /\ code s' <> [].
Proof. exact @stuck_forever. Qed.
Print Assumptions C38_stuck_forever.

Example C38_example : stuck (after 1 1 l38).
Proof. exact (proj1 (proj2 trace38)). Qed.

(** ** C39 *)
(** Full statement (false): closing stores the rows of a single time block. *)
Theorem C39_single_block_refuted : forall e (D : N -> list (data e)), (nthreads e <> 0)%nat -> (forall r, (nSamp e <= length (D r))%nat) ->
  forall k, 0 < k -> k < 2 ^ 32 -> (forall r, r < k -> same_keys e r 0) ->
  exists s, in_order False D k s /\ closed s = true /\ code s = [] /\ status s = Thrown.
Proof. exact @single_block_throws. Qed.
Print Assumptions C39_single_block_refuted.

Theorem C39_single_block_never : forall e (D : N -> list (data e)), (forall r, (nSamp e <= length (D r))%nat) -> forall k (s : state e),
  (nthreads e <> 0)%nat -> in_order False D k s -> 0 < k -> (forall r, r < k -> same_keys e r 0) ->
  closed s = true -> code s = [] -> status s <> Running.
Proof. exact @single_block_not_closed. Qed.
Print Assumptions C39_single_block_never.

Example C39_example : forall r, r < 2 -> same_keys (toy 2 1) r 0.
Proof. intros r Hr. assert (r = 0 \/ r = 1) as [->| ->] by lia; now vm_compute. Qed.

(** ** C40 *)
Theorem C40_block_size_learnt : forall e (D : N -> list (data e)), (forall r, (nSamp e <= length (D r))%nat) -> forall k n na (s : state e),
  (nthreads e <> 0)%nat -> in_order False D k s -> status s = Running -> code s = [] ->
  first_block e n -> antenna_count e n na -> (k <= n -> rpb s = 0) /\ (n < k -> rpb s = n /\ nant s = na).
Proof. exact @block_size_learnt. Qed.
Print Assumptions C40_block_size_learnt.

(** another column may find the block size first *)
Theorem C40_block_size_shared : forall e o (D : N -> list (data e)), (forall r, (nSamp e <= length (D r))%nat) -> forall k n na (s : state e),
  (nthreads e <> 0)%nat -> in_order o D k s -> status s = Running -> code s = [] ->
  first_block e n -> antenna_count e n na -> (rpb s = 0 /\ k <= n) \/ (rpb s = n /\ nant s = na /\ (n < k \/ o /\ n < 2 ^ 32)).
Proof. exact @block_size_known. Qed.
Print Assumptions C40_block_size_shared.
Example C40_shared_example : let s := s40b in in_order (e := toy 2 2) True toyD 3 s /\ status s = Running /\ closed s = true /\ code s = [] /\
  first_block (toy 2 2) 2 /\ antenna_count (toy 2 2) 2 2 /\ rpb s = 2 /\ nant s = 2%nat /\ file s 0 = Some [[10]; [11]] /\ file s 1 = Some [[12]].
Proof. exact trace40. Qed.

Theorem C40_fixed : forall e (s0 s s' : state e), (nthreads e <> 0)%nat -> starts s0 -> reach s0 s -> status s = Running -> step s s' ->
  rpb s <> 0 -> rpb s' = rpb s /\ nant s' = nant s.
Proof. exact @rpb_fixed. Qed.
Print Assumptions C40_fixed.

Example C40_example : let s := snd (oafter 2 2 l52) in in_order (e := toy 2 2) False toyD 3 s /\ status s = Running /\ closed s = true /\ code s = [] /\
  first_block (toy 2 2) 2 /\ antenna_count (toy 2 2) 2 2 /\ rpb s = 2 /\ nant s = 2%nat /\ file s 0 = Some [[10]; [11]] /\ file s 1 = Some [[12]].
Proof. exact trace52. Qed.

(** ** C41 *)
(** A buffer can be encoded exactly when every row up to the last was put, in whatever order. *)
Theorem C41_any_order : forall (e : env) rp na (cs : list (set_call (data e))) b, (0 < nSamp e)%nat ->
  Forall (fun c => (nSamp e <= length (c_data c))%nat /\ (af e = true -> (c_a1 c < na)%nat /\ (c_a2 c < na)%nat) /\ N.of_nat (c_row c) < rp) cs ->
  run_sets (nSamp e) cs [] = Ok b ->
  (forall r, (r < NRows b)%nat -> exists c, In c cs /\ c_row c = r) <-> encodable e rp na b = true.
Proof. exact @full_buffer_encodable. Qed.
Print Assumptions C41_any_order.

Example C41_example : run_sets 1 [SetCall 1 0 1 [5]; SetCall 0 0 1 [6]] [] = Ok [DRow 0 1 [6]; DRow 0 1 [5]] /\
  encodable (toy 2 1) 2 2 [DRow 0 1 [6]; DRow 0 1 [5]] = true /\
  run_sets 1 [SetCall 1 0 1 [5]] [] = Ok [DRow 0 0 []; DRow 0 1 [5]] /\ encodable (toy 2 1) 2 2 [DRow 0 0 []; DRow 0 1 [5]] = false.
Proof. repeat split. Qed.

(** Full statement (false): rows may be written partially. *)
Theorem C41_skipped_row_refuted : exists s : state (toy 2 1), reach (fresh (toy 2 1)) s /\ status s = Undefined.
Proof. exact (ex_intro _ _ trace41). Qed.
Print Assumptions C41_skipped_row_refuted.

(** ** C51 *)
(** Full statement (false): adding a column keeps the rows already written.  After the row is lost,
    writing on in row order reaches undefined behaviour. *)
Theorem C51_add_column_refuted : exists s s' : state (toy 2 1),
  reach (fresh (toy 2 1)) s /\ status s = Running /\ code s = [] /\ closed s = false /\
  val s 0 = Some [5] /\ tb s = [] /\ cache s = [] /\ (forall b, file s b = None) /\
  reach s s' /\ status s' = Undefined.
Proof.
  exact (ex_intro _ (after 2 1 l51) (ex_intro _ (after 2 1 l51b) (match trace51 with
    conj a (conj b (conj c (conj d (conj f (conj g (conj h (conj i _))))))) =>
    conj a (conj b (conj c (conj d (conj f (conj g (conj h (conj i trace51b))))))) end))).
Qed.
Print Assumptions C51_add_column_refuted.

(** ** C52 *)
Theorem C52_order_on_disk : forall e o (D : N -> list (data e)), (forall r, (nSamp e <= length (D r))%nat) -> forall k n na (s : state e),
  (nthreads e <> 0)%nat -> in_order o D k s -> status s = Running -> closed s = true -> code s = [] ->
  first_block e n -> antenna_count e n na -> n < k \/ rpb s <> 0 ->
  rpb s = n /\ nant s = na /\ forall r, r < k -> exists y x rw, file s (r / n) = Some y /\ enc e n na x y /\
    nth_error x (N.to_nat (r mod n)) = Some rw /\ visibilities rw = firstn (nSamp e) (D r).
Proof. exact @order_on_disk. Qed.
Print Assumptions C52_order_on_disk.

Theorem C52_no_ub : forall e o (D : N -> list (data e)), (forall r, (nSamp e <= length (D r))%nat) -> forall k na n (s : state e),
  (nthreads e <> 0)%nat -> in_order o D k s -> first_block e n -> antenna_count e n na ->
  (forall r, af e = true -> (fst (ants e r) < na)%nat /\ (snd (ants e r) < na)%nat) -> status s <> Undefined.
Proof. exact @order_no_ub. Qed.
Print Assumptions C52_no_ub.

Theorem C52_throws_only_on_read : forall e o (D : N -> list (data e)), (forall r, (nSamp e <= length (D r))%nat) -> forall k n (s s' : state e),
  (nthreads e <> 0)%nat -> in_order o D k s -> status s = Running -> step s s' -> status s' = Thrown ->
  first_block e n -> (closed s = true -> n < k \/ rpb s <> 0) -> exists b c, code s = ILoad b :: c /\ b < nblk s /\ file s b = None.
Proof. exact @order_throws. Qed.
Print Assumptions C52_throws_only_on_read.

Theorem C52_no_fault : forall e o (D : N -> list (data e)), (forall r, (nSamp e <= length (D r))%nat) -> forall k (s : state e),
  (nthreads e <> 0)%nat -> in_order o D k s -> status s = Running -> faults s = [].
Proof. exact @order_no_fault. Qed.
Print Assumptions C52_no_fault.

Example C52_example : let s := snd (oafter 2 2 l52) in in_order (e := toy 2 2) False toyD 3 s /\ status s = Running /\ closed s = true /\ code s = [] /\
  first_block (toy 2 2) 2 /\ antenna_count (toy 2 2) 2 2 /\ rpb s = 2 /\ nant s = 2%nat /\ file s 0 = Some [[10]; [11]] /\ file s 1 = Some [[12]].
Proof. exact trace52. Qed.
