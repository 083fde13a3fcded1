(** Runs of small stored columns, used as examples. *)
From Coq Require Import Reals.
From Flocq Require Import Core.
From Verif Require Import Base BaseLemmas Floats TimeBlockBuffer TimeBlockEncoders WeightSpec TbeExamples AfExamples Block Column ColumnSpec ColumnProofs ColumnInv ColumnReach ColumnTerm ColumnData ColumnOrder ColumnWhole StoredColumn.
Local Open Scope N_scope.

Inductive sact := SMain | SWork (k : nat) | SPut | SGet (row : N) | SShut.

Section run.
Context {e : env} (encf : N -> nat -> tbb (data e) -> option (bytes e)) (nobytes : bytes e) (D : N -> list (data e)).
Hypothesis encf_ok : forall rp na x y, encf rp na x = Some y -> enc e rp na x y.

Definition smain (s : state e) : option (state e) :=
  match status s, code s, mwait s with
  | Running, i :: c, false => exec None s i c
  | _, _, _ => None
  end.
Definition swork (k : nat) (s : state e) : option (state e) :=
  match status s, nth_error (workers s) k with
  | Running, Some w =>
      match (match w with WPicked _ x => encf (rpb s) (nant s) x | _ => Some nobytes end) with
      | Some y => match wexec y s w with
                  | Some (s', w') => Some (set_worker s' k w')
                  | None => None
                  end
      | None => None
      end
  | _, _ => None
  end.
Definition scall (a : call e) (ok : bool) (s : state e) : option (state e) :=
  match status s, code s, closed s, ok with
  | Running, [], false, true => Some (set_code s (call_code a))
  | _, _, _, _ => None
  end.

Lemma smain_istep s s' : smain s = Some s' -> istep s s' /\ code s <> [].
Proof.
  unfold smain. destruct (status s) eqn:R; try discriminate. destruct (code s) as [|i c] eqn:Hc; try discriminate.
  destruct (mwait s) eqn:Mw; try discriminate. intros E. split; [|discriminate]. eapply step_main; eauto. exact Logic.I.
Qed.
Lemma swork_istep k s s' : swork k s = Some s' -> istep s s' /\ code s' = code s.
Proof.
  unfold swork. destruct (status s) eqn:R; try discriminate. destruct (nth_error (workers s) k) as [w|] eqn:Hw; try discriminate.
  destruct (match w with WPicked _ x => _ | _ => _ end) as [y|] eqn:Ey; [|discriminate]. destruct (wexec y s w) as [(s1 & w1)|] eqn:Ew; try discriminate. intros [= <-]. split.
  - eapply step_worker; eauto. intros b x -> _. now apply encf_ok.
  - change (code (set_worker s1 k w1)) with (code s1). destruct w as [| | |b x|b|]; cbn [wexec] in Ew; unfold pick in Ew;
      repeat match type of Ew with
      | (if ?b then _ else _) = Some _ => destruct b
      | match match ?b with _ => _ end with _ => _ end = Some _ => destruct b
      | match ?b with _ => _ end = Some _ => destruct b
      end; try discriminate; injection Ew as <- <-; reflexivity.
Qed.
Lemma scall_inv a ok s s' : scall a ok s = Some s' -> status s = Running /\ code s = [] /\ closed s = false /\ ok = true /\ s' = set_code s (call_code a).
Proof. unfold scall. destruct (status s), (code s), (closed s), ok; try discriminate. intros [= <-]. auto 10. Qed.

(** writing in order *)
Fixpoint writes (l : list sact) (k : N) (s : state e) : option (N * state e) :=
  match l with
  | [] => Some (k, s)
  | SMain :: l => match smain s with Some s' => writes l k s' | None => None end
  | SWork j :: l => match swork j s with Some s' => writes l k s' | None => None end
  | SPut :: l => match scall (Put k (D k)) (k <? 2 ^ 32) s with Some s' => writes l (k + 1) s' | None => None end
  | SShut :: l => match scall Shutdown true s with Some s' => writes l k s' | None => None end
  | SGet _ :: _ => None
  end.

Lemma writes_alone l : forall k s k' s', in_order_alone D k s -> writes l k s = Some (k', s') -> in_order_alone D k' s'.
Proof.
  induction l as [|a l IH]; intros k s k' s' H; cbn [writes]; [now intros [= <- <-]|]. destruct a; try discriminate.
  - destruct (smain s) as [s1|] eqn:E; [|discriminate]. apply smain_istep in E. destruct E as (E & C). apply IH. eapply ioa_step; eauto. now constructor.
  - destruct (swork _ s) as [s1|] eqn:E; [|discriminate]. apply swork_istep in E. destruct E as (E & C). apply IH. eapply ioa_step; eauto; [now constructor|]. rewrite C. destruct (code s); [now right|left; discriminate].
  - destruct (scall _ _ s) as [s1|] eqn:E; [|discriminate]. apply scall_inv in E. destruct E as (R & C & Cl & L & ->). apply IH. apply ioa_put; trivial. now apply N.ltb_lt.
  - destruct (scall _ _ s) as [s1|] eqn:E; [|discriminate]. apply scall_inv in E. destruct E as (R & C & Cl & _ & ->). apply IH. now apply ioa_close.
Qed.

Definition written l : N * state e := match writes l 0 (fresh e) with Some r => r | None => (0, fresh e) end.
Definition writes_ok l : bool := match writes l 0 (fresh e) with Some _ => true | None => false end.
Lemma written_alone l : writes_ok l = true -> in_order_alone D (fst (written l)) (snd (written l)).
Proof.
  unfold writes_ok, written. destruct (writes l 0 _) as [(k & s)|] eqn:E; [|discriminate]. intros _. eapply writes_alone; eauto. constructor.
Qed.

(** reading *)
Fixpoint reads (okb : N -> bool) (l : list sact) (s : state e) : option (state e) :=
  match l with
  | [] => Some s
  | SMain :: l => match smain s with Some s' => reads okb l s' | None => None end
  | SWork j :: l => match swork j s with Some s' => reads okb l s' | None => None end
  | SGet row :: l => match scall (Get row) ((row <? 2 ^ 32) && okb row) s with Some s' => reads okb l s' | None => None end
  | SShut :: l => match scall Shutdown true s with Some s' => reads okb l s' | None => None end
  | SPut :: _ => None
  end.

Lemma reads_reading okb l s0 : forall s s', reading (fun r => okb r = true) s0 s -> reads okb l s = Some s' -> reading (fun r => okb r = true) s0 s'.
Proof.
  induction l as [|a l IH]; intros s s' H; cbn [reads]; [now intros [= <-]|]. destruct a; try discriminate.
  - destruct (smain s) as [s1|] eqn:E; [|discriminate]. apply smain_istep in E. destruct E as (E & C). apply IH. eapply rd_step; eauto. now constructor.
  - destruct (swork _ s) as [s1|] eqn:E; [|discriminate]. apply swork_istep in E. destruct E as (E & C). apply IH. eapply rd_step; eauto; [now constructor|]. rewrite C. destruct (code s); [now right|left; discriminate].
  - destruct (scall _ _ s) as [s1|] eqn:E; [|discriminate]. apply scall_inv in E. destruct E as (R & C & Cl & L & ->). apply andb_true_iff in L as (L & O). apply IH. apply rd_get; trivial. now apply N.ltb_lt.
  - destruct (scall _ _ s) as [s1|] eqn:E; [|discriminate]. apply scall_inv in E. destruct E as (R & C & Cl & _ & ->). apply IH. now apply rd_close.
Qed.

Definition read_back (okb : N -> bool) l s0 : state e := match reads okb l s0 with Some s => s | None => s0 end.
Lemma read_back_reading okb l s0 : reading (fun r => okb r = true) s0 (read_back okb l s0).
Proof. unfold read_back. destruct (reads okb l s0) as [s|] eqn:E; [|constructor]. eapply reads_reading; eauto. constructor. Qed.
End run.

(** The encoder of a stored column with one choice of random numbers, and buffers of zeros
    of which the symbols are [v]. *)
Definition fill_encode (v : N) c bits (g : rand c) (rp : N) (na : nat) (x : tbb (sample c)) : option (list N) :=
  if (N.of_nat (length x) <=? rp) && (v <? 2 ^ 32) then
    match encodeAndWrite c bits (N.to_nat rp) na g x (repeat 0 (CalculateBlockSize c bits (N.to_nat rp) na)) (repeat v (nSymbols c (N.to_nat rp))) with
    | Ok (y, _) => Some y
    | _ => None
    end
  else None.
Definition zeros_encode : forall c, N -> rand c -> N -> nat -> tbb (sample c) -> option (list N) := fill_encode 0.

Lemma fill_encode_ok v c bits g isAf nS T nt rp na x y : fill_encode v c bits g rp na x = Some y -> enc (stored_column c isAf bits nS T nt) rp na x y.
Proof.
  unfold fill_encode. destruct (N.leb_spec (N.of_nat (length x)) rp) as [L|]; [|discriminate]. destruct (N.ltb_spec v (2 ^ 32)) as [V|]; [|discriminate]. cbn [andb].
  destruct (encodeAndWrite _ _ _ _ _ _ _ _) as [(y' & bufs)| |] eqn:E; try discriminate. intros [= <-]. split; [exact L|].
  exists g, (repeat 0 (CalculateBlockSize c bits (N.to_nat rp) na)), (repeat v (nSymbols c (N.to_nat rp))), bufs. split; [|exact E].
  split; [apply repeat_length|]. split; [apply repeat_length|]. split; apply Forall_forall; intros u Hu; apply repeat_spec in Hu; now subst.
Qed.
Lemma zeros_encode_ok c bits g isAf nS T nt rp na x y : zeros_encode c bits g rp na x = Some y -> enc (stored_column c isAf bits nS T nt) rp na x y.
Proof. apply fill_encode_ok. Qed.

(** four rows per block, six rows *)
Definition exT : table := Table (fun r => match r mod 4 with 0 => (0, 1)%nat | 1 => (0, 2)%nat | 2 => (1, 1)%nat | _ => (1, 2)%nat end) (fun r => (Z.of_N r / 4)%Z) (fun _ => 0%Z) (fun _ => 0%Z).
Definition exD (r : N) : list cf :=
  match r with
  | 0 => [(hf 2, hf 1); (hf (-6), hf 3)] | 1 => [(hf 8, hf 8); (hf 1, nan32)] | 2 => [(hf 0, hf 0); (hf 0, hf 0)] | 3 => [(inf32, hf 100); (hf 2, hf 2)]
  | 4 => [(hf 5, hf (-5)); (hf 5, hf 5)] | _ => [(hf 1, hf 1); (hf 3, hf 3)]
  end.
Definition exW (r : N) : list f32 := match r with 0 => [hf 2; hf 3; hf 0; hf 9] | 1 => [hf 8; hf 8; hf 3; hf 2] | 5 => [hf 2; hf 2; hf 1; hf 1] | _ => [hf 4; hf 4; hf 6; hf 6] end.

(** six rows put, two encoding threads, closed *)
Definition rep n (a : sact) := repeat a n.
Definition ex_writes : list sact :=
  [SPut; SMain; SPut; SMain; SPut; SMain; SPut; SMain; SPut] ++ rep 8 SMain ++ [SPut] ++ rep 3 SMain ++ [SShut; SMain; SMain; SWork 0; SWork 1; SWork 1; SWork 0; SWork 0; SWork 1; SMain; SWork 1; SWork 0; SMain].
(** then rows 5, 0 and 1 read *)
Definition ex_reads : list sact := [SGet 5] ++ rep 5 SMain ++ [SWork 0; SWork 1; SGet 0] ++ rep 5 SMain ++ [SGet 1] ++ rep 4 SMain.
Definition show1 {A B} (f : A -> B) (o : N * answer A) : N * option (list B) := match o with (r, AVals v) => (r, Some (map f v)) | (r, AZero) => (r, None) end.

Lemma reading_mono {e} (ok ok' : N -> Prop) (s0 s : state e) : (forall r, ok r -> ok' r) -> reading ok s0 s -> reading ok' s0 s.
Proof. intros I. induction 1; [constructor|now apply rd_get; auto|now apply rd_close|eapply rd_step; eauto]. Qed.

Section ex.
Context (c : codec) (isAf : bool) (bits : N) (nS : nat) (g : rand c) (D : N -> list (sample c)).
Definition exE : env := stored_column c isAf bits nS exT 2.
Definition ex_written : state exE := snd (written (e := exE) (zeros_encode c bits g) [] D ex_writes).
Definition ex_read : state exE := read_back (e := exE) (zeros_encode c bits g) [] (fun r => r <? 6) ex_reads (opened exE (file ex_written) (nblk ex_written) 4 3).
Definition ex_ok : bool := writes_ok (e := exE) (zeros_encode c bits g) [] D ex_writes && (fst (written (e := exE) (zeros_encode c bits g) [] D ex_writes) =? 6).
Definition ex_closed : bool := match status ex_written, closed ex_written, code ex_written with Running, true, [] => true | _, _, _ => false end.

Lemma ex_alone : ex_ok = true -> in_order_alone (e := exE) D 6 ex_written.
Proof.
  unfold ex_ok. intros H. apply andb_true_iff in H as (H1 & H2). apply N.eqb_eq in H2. rewrite <- H2. apply (written_alone (e := exE)); trivial.
  intros rp na x y H. exact (zeros_encode_ok c bits g isAf nS exT 2 rp na x y H).
Qed.
Lemma ex_reading : reading (fun r => r < 6) (opened exE (file ex_written) (nblk ex_written) 4 3) ex_read.
Proof.
  apply (reading_mono (fun r => (r <? 6) = true)); [intros r; apply N.ltb_lt|]. apply read_back_reading.
  intros rp na x y H. exact (zeros_encode_ok c bits g isAf nS exT 2 rp na x y H).
Qed.
Lemma ex_isclosed : ex_closed = true -> status ex_written = Running /\ closed ex_written = true /\ code ex_written = [].
Proof. unfold ex_closed. destruct (status _), (closed _), (code _); try discriminate. auto. Qed.
End ex.

Lemma ex_first c isAf bits nS : first_block (exE c isAf bits nS) 4.
Proof. split; [lia|]. split; [|now vm_compute]. intros r Hr. assert (r = 0 \/ r = 1 \/ r = 2 \/ r = 3) as [->|[->|[->| ->]]] by lia; now vm_compute. Qed.
Lemma ex_ants c isAf bits nS : antenna_count (exE c isAf bits nS) 4 3.
Proof.
  split.
  - intros r Hr. assert (r = 0 \/ r = 1 \/ r = 2 \/ r = 3) as [->|[->|[->| ->]]] by lia; cbn; lia.
  - exists 1. split; [lia|]. cbn. lia.
Qed.

Lemma exT_below r : (fst (t_ants exT r) < 3 /\ snd (t_ants exT r) < 3)%nat.
Proof. cbn. destruct (r mod 4) as [|[[|[]|]|[|[]|]|]]; cbn; lia. Qed.
Lemma exD_long r : (1 * 2 <= length (exD r))%nat.
Proof. unfold exD. destruct r as [|[[[]|[]|]|[[]|[]|]|]]; cbn; lia. Qed.
Lemma exW_long r : (2 * 2 <= length (exW r))%nat.
Proof. unfold exW. destruct r as [|[[[]|[]|]|[[]|[]|]|]]; cbn; lia. Qed.
Lemma hf_nonneg z : (0 <= z < 2 ^ 24)%Z -> nonneg (hf z).
Proof.
  intros H. unfold hf. destruct (lit32_val z (-1)) as (F & E); [lia|lia|]. split; [exact F|]. rewrite E. apply Rmult_le_pos; [apply IZR_le; lia|apply bpow_ge_0].
Qed.
Lemma exW_nonneg r : Forall nonneg (exW r).
Proof. unfold exW. destruct r as [|[[[]|[]|]|[[]|[]|]|]]; repeat (apply Forall_cons; [apply hf_nonneg; lia|]); apply Forall_nil. Qed.
