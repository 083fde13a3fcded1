(** Properties of stored columns: what is written to a new column and read back
    after it was closed (C58, C59). *)
From Verif Require Import Base Floats TimeBlockBuffer TbbSpec BitStream BytePackerProofs StochasticEncoder EncSpec TimeBlockEncoders TbeSpec TbeExamples AfSpec AfExamples
  Weights WeightSpec Block BlockSpec BlockProofs BlockEnc BlockGood PropBlock Column ColumnSpec ColumnProofs ColumnOrder ColumnWhole ColumnRead StoredColumn StoredProofs StoredTraces.
Local Open Scope N_scope.

(** ** C58.  Reading a closed column changes nothing in the file, gives what the
    file holds, and ends. *)
Theorem C58_read_only : forall e f nb rp na, rp <> 0 -> (forall b, f b <> None -> b < nb) ->
  forall (ok : N -> Prop) s, reading ok (opened e f nb rp na) s -> status s = Running ->
  file s = f /\ cache s = [] /\ forall row a, In (row, a) (outs s) -> ok row /\
    (nblk s <= row / rp -> a = AZero) /\
    (forall y v, f (row / rp) = Some y -> nth_error (dec e rp na (row / rp) y) (N.to_nat (row mod rp)) = Some v -> a = AVals v).
Proof. exact @read_only. Qed.
Print Assumptions C58_read_only.

(** Only reading a block that is missing or too short can fail. *)
Theorem C58_failures : forall e f nb rp na, rp <> 0 -> (forall b, f b <> None -> b < nb) ->
  forall (ok : N -> Prop) s s', reading ok (opened e f nb rp na) s -> status s = Running -> step s s' -> code s <> [] \/ code s' = [] -> status s' <> Running ->
  exists row, ok row /\ ((status s' = Thrown /\ code s = [ILoad (row / rp); IRead row] /\ row / rp < nblk s /\ f (row / rp) = None) \/
    (status s' = Undefined /\ code s = [IRead row] /\ exists y, f (row / rp) = Some y /\ nth_error (dec e rp na (row / rp) y) (N.to_nat (row mod rp)) = None)).
Proof. exact @read_ends. Qed.
Print Assumptions C58_failures.

Theorem C58_finish : forall e f nb rp na, rp <> 0 -> (forall b, f b <> None -> b < nb) ->
  forall (ok : N -> Prop) s (a : call e), (nthreads e <> 0)%nat -> nb < 2 ^ 64 -> inhabited (bytes e) -> reading ok (opened e f nb rp na) s -> status s = Running -> code s = [] -> closed s = false ->
  (a = Shutdown \/ exists row, a = Get row /\ ok row /\ row < 2 ^ 32) -> finishes (set_code s (call_code a)).
Proof. exact @reads_finish. Qed.
Print Assumptions C58_finish.

(** ** C59.  From the visibilities put to the visibilities got: for a new table written in
    row order by any number of encoding threads in any schedule, closed, opened again
    and read in any order.  If [o], another column of the table may have found the block size. *)
Theorem C59_row : forall e bits nPol nChan L T nt, bit_encoder e bits -> levels e L -> nt <> 0%nat ->
  let E := row_column e bits nPol nChan T nt in forall (o : Prop) (D : N -> list cf) k n na (s : state E), (forall r, nPol * nChan <= length (D r))%nat ->
  in_order (e := E) o D k s -> status s = Running -> closed s = true -> code s = [] -> first_block E n -> antenna_count E n na -> n < k \/ rpb s <> 0 ->
  forall nb s', nblk s <= nb -> reading (fun r => r < k) (opened E (file s) nb n na) s' ->
  status s' = Running /\ forall r a, In (r, a) (outs s') -> r < k /\ exists out, a = AVals out /\
    row_good e L (nPol * nChan) (DRow (fst (t_ants T r)) (snd (t_ants T r)) (firstn (nPol * nChan) (D r))) out.
Proof. intros. eapply row_written_read; eauto. Qed.
Print Assumptions C59_row.

Theorem C59_rf : forall e bits nPol nChan L T nt, bit_encoder e bits -> levels e L -> nt <> 0%nat ->
  let E := rf_column e bits nPol nChan T nt in forall (o : Prop) (D : N -> list cf) k n na (s : state E), (forall r, nPol * nChan <= length (D r))%nat ->
  in_order (e := E) o D k s -> status s = Running -> closed s = true -> code s = [] -> first_block E n -> antenna_count E n na -> n < k \/ rpb s <> 0 ->
  forall nb s', nblk s <= nb -> reading (fun r => r < k) (opened E (file s) nb n na) s' ->
  status s' = Running /\ forall r a, In (r, a) (outs s') -> r < k /\ exists out, a = AVals out /\
    exists x, block_of E D k n (r / n) x /\ rf_good e L nPol (nPol * nChan) x (DRow (fst (t_ants T r)) (snd (t_ants T r)) (firstn (nPol * nChan) (D r))) out.
Proof. intros. eapply rf_written_read; eauto. Qed.
Print Assumptions C59_rf.

Theorem C59_af : forall e bits nPol nChan L T nt, bit_encoder e bits -> levels e L -> nt <> 0%nat ->
  let E := af_column e bits nPol nChan T nt in forall (o : Prop) (D : N -> list cf) k n na (s : state E), (forall r, nPol * nChan <= length (D r))%nat ->
  (0 < nChan)%nat -> (forall r, fst (t_ants T r) < na /\ snd (t_ants T r) < na)%nat ->
  in_order (e := E) o D k s -> status s = Running -> closed s = true -> code s = [] -> first_block E n -> antenna_count E n na -> n < k \/ rpb s <> 0 ->
  forall nb s', nblk s <= nb -> reading (fun r => r < k) (opened E (file s) nb n na) s' ->
  status s' = Running /\ forall r a, In (r, a) (outs s') -> r < k /\ exists out, a = AVals out /\
    exists x y, block_of E D k n (r / n) x /\ file s (r / n) = Some y /\
    af_good e L nPol (nPol * nChan) na x (floats (nMetaFloats (af_codec e nPol nChan) (N.to_nat n) na) y) (DRow (fst (t_ants T r)) (snd (t_ants T r)) (firstn (nPol * nChan) (D r))) out.
Proof. intros. eapply af_written_read; eauto. Qed.
Print Assumptions C59_af.

(** Weights: the last block must be full, or no other column may extend the file meanwhile
    (other rows of the block can then hold anything, and the largest weight is shared). *)
Theorem C59_weights : forall nPol nChan bits T nt, supported bits -> (1 <= nPol)%nat -> nt <> 0%nat ->
  let E := weight_column bits nPol nChan T nt in forall (o : Prop) (D : N -> list f32) k n na (s : state E), (forall r, nPol * nChan <= length (D r))%nat -> (forall r, Forall nonneg (D r)) ->
  in_order (e := E) o D k s -> status s = Running -> closed s = true -> code s = [] -> first_block E n -> antenna_count E n na -> n < k \/ rpb s <> 0 ->
  k mod n = 0 \/ in_order_alone (e := E) D k s ->
  forall nb s', nblk s <= nb -> reading (fun r => r < k) (opened E (file s) nb n na) s' ->
  status s' = Running /\ forall r a, In (r, a) (outs s') -> r < k /\ exists out x m, a = AVals out /\ block_of E D k n (r / n) x /\
    only_put E D n (r / n) x /\ largest_weight nPol nChan (map (@visibilities f32) x) m /\
    weights_good nPol nChan bits m (DRow (fst (t_ants T r)) (snd (t_ants T r)) (firstn (nPol * nChan) (D r))) out.
Proof. intros. eapply weight_written_read; eauto. Qed.
Print Assumptions C59_weights.

(** Every put and the close end. *)
Theorem C59_row_finish : forall e bits nPol nChan L T nt, bit_encoder e bits -> levels e L -> nt <> 0%nat ->
  let E := row_column e bits nPol nChan T nt in forall (o : Prop) (D : N -> list cf) k (s : state E) (a : call E), (forall r, nPol * nChan <= length (D r))%nat ->
  in_order (e := E) o D k s -> status s = Running -> code s = [] -> closed s = false -> next_call (e := E) o D k s a -> finishes (set_code s (call_code a)).
Proof. intros. eapply row_finish; eauto. Qed.
Print Assumptions C59_row_finish.

Theorem C59_rf_finish : forall e bits nPol nChan L T nt, bit_encoder e bits -> levels e L -> nt <> 0%nat ->
  let E := rf_column e bits nPol nChan T nt in forall (o : Prop) (D : N -> list cf) k (s : state E) (a : call E), (forall r, nPol * nChan <= length (D r))%nat ->
  in_order (e := E) o D k s -> status s = Running -> code s = [] -> closed s = false -> next_call (e := E) o D k s a -> finishes (set_code s (call_code a)).
Proof. intros. eapply rf_finish; eauto. Qed.
Print Assumptions C59_rf_finish.

Theorem C59_af_finish : forall e bits nPol nChan L T nt, bit_encoder e bits -> levels e L -> nt <> 0%nat ->
  let E := af_column e bits nPol nChan T nt in forall (o : Prop) (D : N -> list cf) k (s : state E) (a : call E), (forall r, nPol * nChan <= length (D r))%nat -> (0 < nChan)%nat ->
  in_order (e := E) o D k s -> status s = Running -> code s = [] -> closed s = false -> next_call (e := E) o D k s a -> finishes (set_code s (call_code a)).
Proof. intros. eapply af_finish; eauto. Qed.
Print Assumptions C59_af_finish.

Theorem C59_weights_finish : forall nPol nChan bits T nt, supported bits -> (1 <= nPol)%nat -> nt <> 0%nat ->
  let E := weight_column bits nPol nChan T nt in forall (D : N -> list f32) k (s : state E) (a : call E), (forall r, nPol * nChan <= length (D r))%nat -> (forall r, Forall nonneg (D r)) ->
  in_order_alone (e := E) D k s -> status s = Running -> code s = [] -> closed s = false -> (a = Put (e := E) k (D k) /\ k < 2 ^ 32) \/ a = Shutdown -> finishes (set_code s (call_code a)).
Proof. intros. eapply weight_finish; eauto. Qed.
Print Assumptions C59_weights_finish.

(** For any codec: the blocks of the file are those of the rows put. *)
Theorem C59_blocks : forall (e : env) (o : Prop) (D : N -> list (data e)), (forall r, nSamp e <= length (D r))%nat -> nthreads e <> 0%nat ->
  forall k n na (s : state e), in_order o D k s -> status s = Running -> closed s = true -> code s = [] -> first_block e n -> antenna_count e n na -> n < k \/ rpb s <> 0 ->
  rpb s = n /\ nant s = na /\ forall b, b * n < k -> exists y x, file s b = Some y /\ enc e n na x y /\ block_of e D k n b x.
Proof. exact @order_blocks. Qed.
Print Assumptions C59_blocks.

Theorem C59_blocks_alone : forall (e : env) (D : N -> list (data e)), (forall r, nSamp e <= length (D r))%nat -> nthreads e <> 0%nat ->
  forall k n na (s : state e), in_order_alone D k s -> status s = Running -> closed s = true -> code s = [] -> first_block e n -> antenna_count e n na -> n < k \/ rpb s <> 0 ->
  rpb s = n /\ nant s = na /\ forall b, b * n < k -> exists y x, file s b = Some y /\ enc e n na x y /\ exact_block e D k n b x.
Proof. exact (fun e => @order_exact e False). Qed.
Print Assumptions C59_blocks_alone.

(** Six rows of one polarization and two channels, four rows per block, put, closed and read again.
    Values in units of 1/1024. *)
Example C59_row_example : let E := row_column ex3 2 1 2 exT 2 in let s := ex_written (row_codec ex3 1 2) false 2 2 (fun _ => 5%Z) exD in
  let s' := ex_read (row_codec ex3 1 2) false 2 2 (fun _ => 5%Z) exD in
  bit_encoder ex3 2 /\ levels ex3 two /\ (forall r, 1 * 2 <= length (exD r))%nat /\ in_order (e := E) False exD 6 s /\ (status s = Running /\ closed s = true /\ code s = []) /\
  first_block E 4 /\ antenna_count E 4 3 /\ reading (fun r => r < 6) (opened E (file s) (nblk s) 4 3) s' /\
  map (show1 show2) (outs s') = [(1, Some [(Num 4096, Num 4096); (Num 4096, NaN)]); (0, Some [(Num 3072, Num 3072); (Num (-3072), Num 3072)]); (5, Some [(Num 1536, Num 1536); (Num 1536, Num 1536)])].
Proof.
  intros E s s'. split; [exact ex3_bits|]. split; [exact ex3_levels|]. split; [exact exD_long|]. split; [apply alone_order, ex_alone; now vm_compute|].
  split; [apply ex_isclosed; now vm_compute|]. split; [exact (ex_first (row_codec ex3 1 2) false 2 2)|]. split; [exact (ex_ants (row_codec ex3 1 2) false 2 2)|]. split; [exact (ex_reading (row_codec ex3 1 2) false 2 2 _ _)|]. now vm_compute.
Qed.

Example C59_rf_example : let E := rf_column ex3 2 1 2 exT 2 in let s := ex_written (rf_codec ex3 1 2) false 2 2 (fun _ => 5%Z) exD in
  let s' := ex_read (rf_codec ex3 1 2) false 2 2 (fun _ => 5%Z) exD in
  in_order (e := E) False exD 6 s /\ (status s = Running /\ closed s = true /\ code s = []) /\
  first_block E 4 /\ antenna_count E 4 3 /\ reading (fun r => r < 6) (opened E (file s) (nblk s) 4 3) s' /\
  map (show1 show2) (outs s') = [(1, Some [(Num 4096, Num 4096); (Num 4096, NaN)]); (0, Some [(Num 3072, Num 3072); (Num (-3072), Num 3072)]); (5, Some [(Num 1536, Num 1536); (Num 1536, Num 1536)])].
Proof.
  intros E s s'. split; [apply alone_order, ex_alone; now vm_compute|].
  split; [apply ex_isclosed; now vm_compute|]. split; [exact (ex_first (rf_codec ex3 1 2) false 2 2)|]. split; [exact (ex_ants (rf_codec ex3 1 2) false 2 2)|]. split; [exact (ex_reading (rf_codec ex3 1 2) false 2 2 _ _)|]. now vm_compute.
Qed.

Example C59_af_example : let E := af_column ex3 2 1 2 exT 2 in let s := ex_written (af_codec ex3 1 2) true 2 2 (fun _ => 5%Z) exD in
  let s' := ex_read (af_codec ex3 1 2) true 2 2 (fun _ => 5%Z) exD in
  (forall r, fst (t_ants exT r) < 3 /\ snd (t_ants exT r) < 3)%nat /\ in_order (e := E) False exD 6 s /\ (status s = Running /\ closed s = true /\ code s = []) /\
  first_block E 4 /\ antenna_count E 4 3 /\ reading (fun r => r < 6) (opened E (file s) (nblk s) 4 3) s' /\
  map (show1 show2) (outs s') = [(1, Some [(Num 4096, Num 4096); (Num 4526, NaN)]); (0, Some [(Num 2779, Num 2779); (Num (-3071), Num 3071)]); (5, Some [(Num 1082, Num 1082); (Num 1536, Num 1536)])].
Proof.
  intros E s s'. split; [exact exT_below|]. split; [apply alone_order, ex_alone; now vm_compute|].
  split; [apply ex_isclosed; now vm_compute|]. split; [exact (ex_first (af_codec ex3 1 2) true 2 2)|]. split; [exact (ex_ants (af_codec ex3 1 2) true 2 2)|]. split; [exact (ex_reading (af_codec ex3 1 2) true 2 2 _ _)|]. now vm_compute.
Qed.

Example C59_weights_example : let E := weight_column 12 2 2 exT 2 in let s := ex_written (weight_codec 2 2 12) false 12 4 tt exW in
  let s' := ex_read (weight_codec 2 2 12) false 12 4 tt exW in
  supported 12 /\ (forall r, 2 * 2 <= length (exW r))%nat /\ (forall r, Forall nonneg (exW r)) /\ in_order_alone (e := E) exW 6 s /\ (status s = Running /\ closed s = true /\ code s = []) /\
  first_block E 4 /\ antenna_count E 4 3 /\ reading (fun r => r < 6) (opened E (file s) (nblk s) 4 3) s' /\
  map (show1 show) (outs s') = [(1, Some [Num 4096; Num 4096; Num 1024; Num 1024]); (0, Some [Num 1024; Num 1024; Num 0; Num 0]); (5, Some [Num 1024; Num 1024; Num 512; Num 512])].
Proof.
  intros E s s'. split; [unfold supported; cbn; tauto|]. split; [exact exW_long|]. split; [exact exW_nonneg|]. split; [apply ex_alone; now vm_compute|].
  split; [apply ex_isclosed; now vm_compute|]. split; [exact (ex_first (weight_codec 2 2 12) false 12 4)|]. split; [exact (ex_ants (weight_codec 2 2 12) false 12 4)|]. split; [exact (ex_reading (weight_codec 2 2 12) false 12 4 _ _)|]. now vm_compute.
Qed.

(** C58 on the same column. *)
Example C58_example : let s := ex_written (row_codec ex3 1 2) false 2 2 (fun _ => 5%Z) exD in
  let s' := ex_read (row_codec ex3 1 2) false 2 2 (fun _ => 5%Z) exD in
  (forall b, file s b <> None -> b < nblk s) /\ reading (fun r => r < 6) (opened _ (file s) (nblk s) 4 3) s' /\ status s' = Running /\ code s' = [] /\ closed s' = false /\ length (outs s') = 3%nat.
Proof.
  intros s s'. split.
  { intros b. replace (nblk s) with 2 by (vm_compute; reflexivity). intros H. destruct (N.lt_ge_cases b 2) as [|H2]; trivial. exfalso. apply H.
    destruct b as [|[[b|b|]|[b|b|]|]]; try lia; vm_compute; reflexivity. }
  split; [exact (ex_reading (row_codec ex3 1 2) false 2 2 _ _)|]. repeat (split; [now vm_compute|]). now vm_compute.
Qed.
