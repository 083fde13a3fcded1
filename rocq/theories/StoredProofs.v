(** Columns with their encoders: writing in order, closing, opening and reading. *)
From Coq Require Import Reals.
From Flocq Require Import Core.
From Verif Require Import Base BaseLemmas Floats TimeBlockBuffer TbbSpec TbbProofs BytePacker BitStream BytePackerProofs BytePackerWhole BytePackerTop StochasticEncoder EncSpec TimeBlockEncoders TbeSpec TbeErr
  AfSpec Weights WeightSpec Block BlockSpec BlockProofs BlockEnc BlockGood Column ColumnSpec ColumnProofs ColumnInv ColumnReach ColumnTerm ColumnData ColumnOrder ColumnWhole ColumnRead StoredColumn.
From Coq Require Import ZifyNat ZifyN.
Local Open Scope N_scope.

(** the contents of the buffer for the symbols do not matter *)
Lemma load_any c bits nRows nAnt ants block sym sym' : supported bits -> fits 8 block -> length block = CalculateBlockSize c bits nRows nAnt ->
  length sym = nSymbols c nRows -> length sym' = nSymbols c nRows ->
  loadBlock c bits nRows nAnt ants block sym = loadBlock c bits nRows nAnt ants block sym'.
Proof.
  intros Sb F L L1 L2. unfold loadBlock. destruct (_ <? _)%nat; trivial.
  assert (X : forall z, length z = nSymbols c nRows -> unpack bits z (skipn (4 * nMetaFloats c nRows nAnt) block) (nSymbols c nRows) =
    Ok (digits bits (nSymbols c nRows) (BitStream.value 8 (firstn (N.to_nat (bufferSize (N.of_nat (nSymbols c nRows)) bits)) (skipn (4 * nMetaFloats c nRows nAnt) block))))).
  { intros z Lz. rewrite unpack_layout_lem; trivial.
    - rewrite <- Lz, skipn_all, app_nil_r. reflexivity.
    - lia.
    - rewrite skipn_length, L. unfold CalculateBlockSize, binarySize. rewrite Nat.add_comm, Nat.add_sub. apply Nat.le_refl.
    - apply Forall_forall. intros v Hv. unfold fits in F. rewrite Forall_forall in F. apply F. rewrite <- (firstn_skipn (4 * nMetaFloats c nRows nAnt) block). apply in_or_app. now right. }
  now rewrite !X.
Qed.

Lemma mapM_length {A B} (f : A -> res B) l l' : mapM f l = Ok l' -> length l' = length l.
Proof. intros H. apply mapM_inv, Forall2_len in H. congruence. Qed.

Lemma load_length c bits nRows nAnt ants block sym rows : loadBlock c bits nRows nAnt ants block sym = Ok rows -> length rows = nRows.
Proof.
  unfold loadBlock. destruct (_ <? _)%nat; [discriminate|]. destruct (unpack _ _ _ _); try discriminate. cbn [bind].
  destruct (initializeDecode _ _ _ _); try discriminate. cbn [bind]. intros H. apply mapM_length in H. now rewrite seq_length in H.
Qed.

Section stored.
Variables (c : codec) (isAf : bool) (bits : N) (nS : nat) (T : table) (nt : nat).
Let E := stored_column c isAf bits nS T nt.
Hypothesis NT : (nt <> 0)%nat.

Variable good : tbb (sample c) -> list f32 -> drow (sample c) -> list (sample c) -> Prop.
Variables (o : Prop) (D : N -> list (data E)) (k n : N) (na : nat).
Hypothesis HD : forall r, (nSamp E <= length (D r))%nat.
Variable P : N -> tbb (sample c) -> Prop.
(** every block of the table is read back well *)
Hypothesis keeps : forall b x y, b * n < k -> block_of E D k n b x -> P b x -> enc E n na x y ->
  exists rows, (forall sym0, length sym0 = nSymbols c (N.to_nat n) -> loadBlock c bits (N.to_nat n) na (block_ants T n b) y sym0 = Ok rows) /\
    forall r row, nth_error x r = Some row -> exists out, nth_error rows r = Some out /\ good x (floats (nMetaFloats c (N.to_nat n) na) y) row out.

Lemma decodes b x y : b * n < k -> block_of E D k n b x -> P b x -> enc E n na x y -> length (dec E n na b y) = N.to_nat n /\
  forall r row, nth_error x r = Some row -> exists out, nth_error (dec E n na b y) r = Some out /\ good x (floats (nMetaFloats c (N.to_nat n) na) y) row out.
Proof.
  intros Hb Hx Px He. destruct (keeps b x y Hb Hx Px He) as (rows & Hl & Hr). cbn [dec E stored_column]. rewrite Hl by (apply repeat_length).
  split; [|exact Hr]. eapply load_length. apply (Hl (repeat 0 (nSymbols c (N.to_nat n)))). apply repeat_length.
Qed.

Definition row_of (r : N) : drow (sample c) := DRow (fst (t_ants T r)) (snd (t_ants T r)) (firstn nS (D r)).

Lemma written_read (s : state E) : in_order o D k s -> status s = Running -> closed s = true -> code s = [] ->
  first_block E n -> antenna_count E n na -> n < k \/ rpb s <> 0 ->
  (forall b, b * n < k -> exists y x, file s b = Some y /\ enc E n na x y /\ block_of E D k n b x /\ P b x) -> forall nb s', nblk s <= nb -> reading (fun r => r < k) (opened E (file s) nb n na) s' ->
  status s' = Running /\ forall r a, In (r, a) (outs s') -> r < k /\ exists out x y, a = AVals out /\ block_of E D k n (r / n) x /\ P (r / n) x /\ file s (r / n) = Some y /\
    good x (floats (nMetaFloats c (N.to_nat n) na) y) (row_of r) out.
Proof.
  intros H R Cl C Fn An L Q nb s' Lnb Rd.
  assert (Zn : n <> 0) by (destruct Fn; lia).
  assert (Hf : forall b, file s b <> None -> b < nb).
  { intros b Hb. apply N.lt_le_trans with (nblk s); trivial. destruct (proj2 (order_within o D HD NT k s H) R) as (W1 & _). now apply W1. }
  assert (Hd : forall r, r < k -> exists y x out, file s (r / n) = Some y /\ block_of E D k n (r / n) x /\ P (r / n) x /\
     nth_error (dec E n na (r / n) y) (N.to_nat (r mod n)) = Some out /\ good x (floats (nMetaFloats c (N.to_nat n) na) y) (row_of r) out).
  { intros r Hr. assert (Hb : r / n * n < k) by (pose proof (N.div_mod r n Zn); nia). destruct (Q _ Hb) as (y & x & Hy & He & Hx & Px).
    destruct (decodes _ x y Hb Hx Px He) as (_ & Hg). pose proof Hx as (Hx1 & Hx2 & Hx3). destruct (Hx3 r Hr eq_refl) as (row & Hrow & Hv).
    destruct (Hg _ _ Hrow) as (out & Ho & Hgood). exists y, x, out. split; trivial. split; trivial. split; trivial. split; trivial.
    destruct (Hx2 _ _ Hrow) as (Ha & _). rewrite N2Nat.id in Ha. replace (r / n * n + r mod n) with r in Ha by (pose proof (N.div_mod r n Zn); lia).
    replace (row_of r) with row; trivial. unfold row_of. destruct row as [a1 a2 v]. cbn [antenna1 antenna2 visibilities] in *.
    change (t_ants T) with (ants E). rewrite <- Ha. cbn [fst snd]. now rewrite Hv. }
  assert (Rn : status s' = Running).
  { induction Rd as [|s1 row H1 IH R1 C0 C1 L0 O|s1 H1 IH R1 C0 C1|s1 s2 H1 IH St Nc]; trivial.
    destruct (status s2) eqn:R2; trivial; exfalso.
    all: destruct (read_ends (file s) nb n na Zn Hf (fun r => r < k) s1 s2 H1 IH St Nc ltac:(congruence)) as (row & Ok & [(_ & _ & _ & F)|(_ & _ & y & Fy & F)]);
      destruct (Hd row Ok) as (y' & x & out & Y1 & _ & _ & Y2 & _); congruence. }
  split; trivial. intros r a Hin. destruct (read_only (file s) nb n na Zn Hf (fun r => r < k) s' Rd Rn) as (_ & _ & Ro).
  destruct (Ro r a Hin) as (Hrk & _ & Ha). split; trivial. destruct (Hd r Hrk) as (y & x & out & Y1 & Y2 & Px & Y3 & Y4).
  exists out, x, y. split; [eapply Ha; eauto|]. split; trivial. split; trivial. split; trivial.
Qed.
End stored.

Lemma keeps_rows c bits nRows nAnt ants g b packed sym rt (good : list f32 -> drow (sample c) -> list (sample c) -> Prop) y bufs : supported bits ->
  block_reads c bits nRows nAnt ants g b packed sym rt -> block_keeps c bits nRows nAnt ants g b packed sym good ->
  encodeAndWrite c bits nRows nAnt g b packed sym = Ok (y, bufs) ->
  exists rows, (forall sym0, length sym0 = nSymbols c nRows -> loadBlock c bits nRows nAnt ants y sym0 = Ok rows) /\
    forall r row, nth_error b r = Some row -> exists out, nth_error rows r = Some out /\ good (floats (nMetaFloats c nRows nAnt) y) row out.
Proof.
  intros Sb (y1 & p1 & s1 & E1 & L1 & F1 & _) (y2 & b2 & E2 & _ & K) E. rewrite E in E1, E2. injection E1 as <- _. injection E2 as <- _.
  destruct (K (repeat 0 (nSymbols c nRows)) (repeat_length _ _)) as (rows & Hl & Hr). exists rows. split; [|exact Hr].
  intros sym0 L0. rewrite <- Hl. apply load_any; trivial. apply repeat_length.
Qed.

Lemma le_rows {A} (x : list A) n : N.of_nat (length x) <= n -> (length x <= N.to_nat n)%nat.
Proof. lia. Qed.

(** what the encoders need *)
Lemma block_rows E D k n b (x : tbb (data E)) : block_of E D k n b x -> rows_of (nSamp E) x.
Proof. intros (_ & H & _) r Hin. apply In_nth_error in Hin as (i & Hi). now apply (H i). Qed.

Lemma order_32 {E} o (D : N -> list (data E)) k s : in_order o D k s -> k <= 2 ^ 32.
Proof. induction 1; lia. Qed.

Lemma encodable_rows E rp na (x : tbb (data E)) : encodable E rp na x = true -> (length x <= N.to_nat rp)%nat /\ rows_of (nSamp E) x /\ (af E = true -> antennas_below na x).
Proof.
  unfold encodable. intros H. apply andb_true_iff in H as (H1 & H2). apply N.leb_le in H1. rewrite forallb_forall in H2. split; [lia|]. split.
  - intros rw Hin. specialize (H2 rw Hin). apply andb_true_iff in H2 as (H2 & _). now apply Nat.eqb_eq.
  - intros A rw Hin. specialize (H2 rw Hin). apply andb_true_iff in H2 as (_ & H2). rewrite A in H2. cbn in H2. apply andb_true_iff in H2 as (H2 & H3). split; now apply Nat.ltb_lt.
Qed.

Lemma zero_buffers bits c rows ants : thread_buffers c bits rows ants (repeat 0 (CalculateBlockSize c bits rows ants)) (repeat 0 (nSymbols c rows)).
Proof. split; [apply repeat_length|]. split; [apply repeat_length|]. split; apply Forall_forall; intros v Hv; apply repeat_spec in Hv; now subst. Qed.

Section codecs.
Variables (e : encoder) (bits : N) (nPol nChan : nat) (L : f32) (T : table) (nt : nat).
Hypotheses (HB : bit_encoder e bits) (V : levels e L) (NT : (nt <> 0)%nat).
Let n0 := (nPol * nChan)%nat.
Let W : well_formed e := lv_wf e L V.
Let EL : MaxQuantity e = Ok L := lv_max e L V.

Lemma row_keep (D : N -> list cf) k n na b x y : block_of (row_column e bits nPol nChan T nt) D k n b x -> enc (row_column e bits nPol nChan T nt) n na x y ->
  exists rows, (forall sym0, length sym0 = nSymbols (row_codec e nPol nChan) (N.to_nat n) -> loadBlock (row_codec e nPol nChan) bits (N.to_nat n) na (block_ants T n b) y sym0 = Ok rows) /\
    forall r row, nth_error x r = Some row -> exists out, nth_error rows r = Some out /\ row_good e L n0 row out.
Proof.
  intros Hx (Lx & g & packed & sym & bufs & Tb & Ey). assert (Lx' : (length x <= N.to_nat n)%nat) by exact (le_rows _ _ Lx).
  pose proof (block_rows _ _ _ _ _ _ Hx) as Ro.
  eapply (keeps_rows (row_codec e nPol nChan)) with (good := fun _ => row_good e L n0); [exact (proj1 HB)| | |exact Ey].
  - exact (row_block e bits nPol nChan (N.to_nat n) na L HB W EL (block_ants T n b) g x packed sym Ro Lx' Tb).
  - exact (row_keeps e bits nPol nChan (N.to_nat n) na L HB V (block_ants T n b) g x packed sym Ro Lx' Tb).
Qed.

Lemma row_written_read (o : Prop) (D : N -> list cf) k n na (s : state (row_column e bits nPol nChan T nt)) : (forall r, n0 <= length (D r))%nat ->
  in_order (e := row_column e bits nPol nChan T nt) o D k s -> status s = Running -> closed s = true -> code s = [] ->
  first_block (row_column e bits nPol nChan T nt) n -> antenna_count (row_column e bits nPol nChan T nt) n na -> n < k \/ rpb s <> 0 ->
  forall nb s', nblk s <= nb -> reading (fun r => r < k) (opened _ (file s) nb n na) s' ->
  status s' = Running /\ forall r a, In (r, a) (outs s') -> r < k /\ exists out, a = AVals out /\
    row_good e L n0 (DRow (fst (t_ants T r)) (snd (t_ants T r)) (firstn n0 (D r))) out.
Proof.
  intros HD H R Cl C Fn An Lk nb s' Lnb Rd.
  destruct (written_read (row_codec e nPol nChan) false bits n0 T nt NT (fun x meta => row_good e L n0) o D k n na HD (fun _ _ => True)) with (s := s) (nb := nb) (s' := s') as (R' & Hr); trivial.
  2:{ intros b Hb. destruct (order_blocks (e := row_column e bits nPol nChan T nt) o D HD NT k n na s H R Cl C Fn An Lk) as (_ & _ & Q). destruct (Q b Hb) as (y & x & Q1 & Q2 & Q3). exists y, x. auto. }
  { intros b x y Hb Hx _ Ey. exact (row_keep D k n na b x y Hx Ey). }
  split; trivial. intros r a Hin. destruct (Hr r a Hin) as (Hk & out & x & y & Ha & Hx & _ & Hy & Hg). eauto 10.
Qed.

Lemma rf_keep (D : N -> list cf) k n na b x y : block_of (rf_column e bits nPol nChan T nt) D k n b x -> enc (rf_column e bits nPol nChan T nt) n na x y ->
  exists rows, (forall sym0, length sym0 = nSymbols (rf_codec e nPol nChan) (N.to_nat n) -> loadBlock (rf_codec e nPol nChan) bits (N.to_nat n) na (block_ants T n b) y sym0 = Ok rows) /\
    forall r row, nth_error x r = Some row -> exists out, nth_error rows r = Some out /\ rf_good e L nPol n0 x row out.
Proof.
  intros Hx (Lx & g & packed & sym & bufs & Tb & Ey). assert (Lx' : (length x <= N.to_nat n)%nat) by exact (le_rows _ _ Lx).
  pose proof (block_rows _ _ _ _ _ _ Hx) as Ro.
  eapply (keeps_rows (rf_codec e nPol nChan)) with (good := fun _ => rf_good e L nPol n0 x); [exact (proj1 HB)| | |exact Ey].
  - exact (rf_block e bits nPol nChan (N.to_nat n) na L HB W EL (block_ants T n b) g x packed sym Ro Lx' Tb).
  - exact (rf_keeps e bits nPol nChan (N.to_nat n) na L HB V (block_ants T n b) g x packed sym Ro Lx' Tb).
Qed.

Lemma rf_written_read (o : Prop) (D : N -> list cf) k n na (s : state (rf_column e bits nPol nChan T nt)) : (forall r, n0 <= length (D r))%nat ->
  in_order (e := rf_column e bits nPol nChan T nt) o D k s -> status s = Running -> closed s = true -> code s = [] ->
  first_block (rf_column e bits nPol nChan T nt) n -> antenna_count (rf_column e bits nPol nChan T nt) n na -> n < k \/ rpb s <> 0 ->
  forall nb s', nblk s <= nb -> reading (fun r => r < k) (opened _ (file s) nb n na) s' ->
  status s' = Running /\ forall r a, In (r, a) (outs s') -> r < k /\ exists out, a = AVals out /\
    exists x, block_of (rf_column e bits nPol nChan T nt) D k n (r / n) x /\ rf_good e L nPol n0 x (DRow (fst (t_ants T r)) (snd (t_ants T r)) (firstn n0 (D r))) out.
Proof.
  intros HD H R Cl C Fn An Lk nb s' Lnb Rd.
  destruct (written_read (rf_codec e nPol nChan) false bits n0 T nt NT (fun x meta => rf_good e L nPol n0 x) o D k n na HD (fun _ _ => True)) with (s := s) (nb := nb) (s' := s') as (R' & Hr); trivial.
  2:{ intros b Hb. destruct (order_blocks (e := rf_column e bits nPol nChan T nt) o D HD NT k n na s H R Cl C Fn An Lk) as (_ & _ & Q). destruct (Q b Hb) as (y & x & Q1 & Q2 & Q3). exists y, x. auto. }
  { intros b x y Hb Hx _ Ey. exact (rf_keep D k n na b x y Hx Ey). }
  split; trivial. intros r a Hin. destruct (Hr r a Hin) as (Hk & out & x & y & Ha & Hx & _ & Hy & Hg). eauto 10.
Qed.

Lemma af_keep (D : N -> list cf) k n na b x y : n <> 0 -> b * n < k -> (0 < nChan)%nat -> (forall r, fst (t_ants T r) < na /\ snd (t_ants T r) < na)%nat -> n <= 2 ^ 32 -> block_of (af_column e bits nPol nChan T nt) D k n b x -> enc (af_column e bits nPol nChan T nt) n na x y ->
  exists rows, (forall sym0, length sym0 = nSymbols (af_codec e nPol nChan) (N.to_nat n) -> loadBlock (af_codec e nPol nChan) bits (N.to_nat n) na (block_ants T n b) y sym0 = Ok rows) /\
    forall r row, nth_error x r = Some row -> exists out, nth_error rows r = Some out /\ af_good e L nPol n0 na x (floats (nMetaFloats (af_codec e nPol nChan) (N.to_nat n) na) y) row out.
Proof.
  intros Zn Hb Ch Bl L32 Hx (Lx & g & packed & sym & bufs & Tb & Ey). assert (Lx' : (length x <= N.to_nat n)%nat) by exact (le_rows _ _ Lx).
  pose proof (block_rows _ _ _ _ _ _ Hx) as Ro.
  assert (Bx : antennas_below na x).
  { intros rw Hin. apply In_nth_error in Hin as (i & Hi). destruct Hx as (_ & Hx & _). destruct (Hx i rw Hi) as (Ha & _). pose proof (Bl (b * n + N.of_nat i)) as Q. change ((antenna1 rw, antenna2 rw) = t_ants T (b * n + N.of_nat i)) in Ha. rewrite <- Ha in Q. exact Q. }
  assert (Nx : x <> []).
  { intros ->. destruct Hx as (_ & _ & Hx). destruct (Hx (b * n) Hb) as (rw & Hrw & _); [now apply N.div_mul|]. destruct (N.to_nat ((b * n) mod n)); discriminate. }
  assert (Ba : forall r, (r < N.to_nat n)%nat -> (fst (block_ants T n b r) < na /\ snd (block_ants T n b r) < na)%nat) by (intros r _; apply Bl).
  assert (Ax : forall r row, nth_error x r = Some row -> block_ants T n b r = (antenna1 row, antenna2 row)).
  { intros r rw Hr. destruct Hx as (_ & Hx & _). destruct (Hx r rw Hr) as (Ha & _). symmetry. exact Ha. }
  assert (L50 : (Z.of_nat (length x) <= 2 ^ 50)%Z) by (clear - L32 Lx'; lia).
  eapply (keeps_rows (af_codec e nPol nChan)) with (good := fun meta => af_good e L nPol n0 na x meta); [exact (proj1 HB)| | |exact Ey].
  - exact (af_block e bits nPol nChan (N.to_nat n) na L HB W EL (block_ants T n b) g x packed sym (levels_finite e L V) (lv_pos e L V) Ro Bx Ch Nx Lx' Ba Ax Tb).
  - exact (af_keeps e bits nPol nChan (N.to_nat n) na L HB V (block_ants T n b) g x packed sym Ro Bx Ch Nx Lx' L50 Ba Ax Tb).
Qed.

Lemma af_written_read (o : Prop) (D : N -> list cf) k n na (s : state (af_column e bits nPol nChan T nt)) : (forall r, n0 <= length (D r))%nat -> (0 < nChan)%nat -> (forall r, fst (t_ants T r) < na /\ snd (t_ants T r) < na)%nat ->
  in_order (e := af_column e bits nPol nChan T nt) o D k s -> status s = Running -> closed s = true -> code s = [] ->
  first_block (af_column e bits nPol nChan T nt) n -> antenna_count (af_column e bits nPol nChan T nt) n na -> n < k \/ rpb s <> 0 ->
  forall nb s', nblk s <= nb -> reading (fun r => r < k) (opened _ (file s) nb n na) s' ->
  status s' = Running /\ forall r a, In (r, a) (outs s') -> r < k /\ exists out, a = AVals out /\
    exists x y, block_of (af_column e bits nPol nChan T nt) D k n (r / n) x /\ file s (r / n) = Some y /\
    af_good e L nPol n0 na x (floats (nMetaFloats (af_codec e nPol nChan) (N.to_nat n) na) y) (DRow (fst (t_ants T r)) (snd (t_ants T r)) (firstn n0 (D r))) out.
Proof.
  intros HD Ch Bl H R Cl C Fn An Lk nb s' Lnb Rd.
  destruct (written_read (af_codec e nPol nChan) true bits n0 T nt NT (fun x meta => af_good e L nPol n0 na x meta) o D k n na HD (fun _ _ => True)) with (s := s) (nb := nb) (s' := s') as (R' & Hr); trivial.
  2:{ intros b Hb. destruct (order_blocks (e := af_column e bits nPol nChan T nt) o D HD NT k n na s H R Cl C Fn An Lk) as (_ & _ & Q). destruct (Q b Hb) as (y & x & Q1 & Q2 & Q3). exists y, x. auto. }
  { intros b x y Hb Hx _ Ey. apply (af_keep D k n na b x y); trivial; [destruct Fn; lia|].
    pose proof (order_32 _ _ _ _ H). destruct (block_size_known (e := af_column e bits nPol nChan T nt) o D HD k n na s NT H R C Fn An) as [(Z1 & Z2)|(_ & _ & [Z1|(_ & Z1)])]; [destruct Lk; [|congruence]|..]; lia. }
  split; trivial. intros r a Hin. destruct (Hr r a Hin) as (Hk & out & x & y & Ha & Hx & _ & Hy & Hg). eauto 10.
Qed.

Lemma row_encodes rp na x : encodable (row_column e bits nPol nChan T nt) rp na x = true -> exists y, enc (row_column e bits nPol nChan T nt) rp na x y.
Proof.
  intros H. destruct (encodable_rows _ _ _ _ H) as (L1 & R & _).
  destruct (row_block e bits nPol nChan (N.to_nat rp) na L HB W EL (fun _ => (0, 0)%nat) (fun _ => 0%Z) x _ _ R L1 (zero_buffers _ _ _ _)) as (y & p & s & Ey & _).
  exists y. split; [clear - L1; unfold row_column, stored_column in *; cbn [data] in *; lia|]. do 4 eexists. split; [apply zero_buffers|exact Ey].
Qed.

Lemma rf_encodes rp na x : encodable (rf_column e bits nPol nChan T nt) rp na x = true -> exists y, enc (rf_column e bits nPol nChan T nt) rp na x y.
Proof.
  intros H. destruct (encodable_rows _ _ _ _ H) as (L1 & R & _).
  destruct (rf_block e bits nPol nChan (N.to_nat rp) na L HB W EL (fun _ => (0, 0)%nat) (fun _ => 0%Z) x _ _ R L1 (zero_buffers _ _ _ _)) as (y & p & s & Ey & _).
  exists y. split; [clear - L1; unfold rf_column, stored_column in *; cbn [data] in *; lia|]. do 4 eexists. split; [apply zero_buffers|exact Ey].
Qed.

Lemma af_encodes rp na x : (0 < nChan)%nat -> x <> [] -> encodable (af_column e bits nPol nChan T nt) rp na x = true -> exists y, enc (af_column e bits nPol nChan T nt) rp na x y.
Proof.
  intros Ch Nx H. destruct (encodable_rows _ _ _ _ H) as (L1 & R & A). specialize (A eq_refl).
  set (an := fun r => match nth_error x r with Some row => (antenna1 row, antenna2 row) | None => (0, 0)%nat end).
  assert (Na : (0 < na)%nat) by (destruct x as [|row x']; [congruence|destruct (A row (or_introl eq_refl)); lia]).
  destruct (af_block e bits nPol nChan (N.to_nat rp) na L HB W EL an (fun _ => 0%Z) x (repeat 0 (CalculateBlockSize (af_codec e nPol nChan) bits (N.to_nat rp) na)) (repeat 0 (nSymbols (af_codec e nPol nChan) (N.to_nat rp))) (levels_finite e L V) (lv_pos e L V) R A Ch Nx L1) as (y & p & s & Ey & _).
  - intros r _. unfold an. destruct (nth_error x r) as [row|] eqn:Er; [|now split]. apply nth_error_In in Er. exact (A row Er).
  - intros r row Er. unfold an. match goal with |- match ?u with _ => _ end = _ => replace u with (Some row) by (symmetry; exact Er) end. reflexivity.
  - apply zero_buffers.
  - exists y. split; [clear - L1; unfold af_column, stored_column in *; cbn [data] in *; lia|]. do 4 eexists. split; [apply zero_buffers|exact Ey].
Qed.

Lemma row_finish (o : Prop) (D : N -> list cf) k (s : state (row_column e bits nPol nChan T nt)) (a : call (row_column e bits nPol nChan T nt)) : (forall r, n0 <= length (D r))%nat ->
  in_order (e := row_column e bits nPol nChan T nt) o D k s -> status s = Running -> code s = [] -> closed s = false ->
  next_call (e := row_column e bits nPol nChan T nt) o D k s a -> finishes (set_code s (call_code a)).
Proof. intros HD H R C Cl Ha. apply (order_finish (e := row_column e bits nPol nChan T nt) o D HD NT k); trivial; [exact (inhabits [])|]. intros n na b x _ _. apply row_encodes. Qed.

Lemma rf_finish (o : Prop) (D : N -> list cf) k (s : state (rf_column e bits nPol nChan T nt)) (a : call (rf_column e bits nPol nChan T nt)) : (forall r, n0 <= length (D r))%nat ->
  in_order (e := rf_column e bits nPol nChan T nt) o D k s -> status s = Running -> code s = [] -> closed s = false ->
  next_call (e := rf_column e bits nPol nChan T nt) o D k s a -> finishes (set_code s (call_code a)).
Proof. intros HD H R C Cl Ha. apply (order_finish (e := rf_column e bits nPol nChan T nt) o D HD NT k); trivial; [exact (inhabits [])|]. intros n na b x _ _. apply rf_encodes. Qed.

Lemma af_finish (o : Prop) (D : N -> list cf) k (s : state (af_column e bits nPol nChan T nt)) (a : call (af_column e bits nPol nChan T nt)) : (forall r, n0 <= length (D r))%nat -> (0 < nChan)%nat ->
  in_order (e := af_column e bits nPol nChan T nt) o D k s -> status s = Running -> code s = [] -> closed s = false ->
  next_call (e := af_column e bits nPol nChan T nt) o D k s a -> finishes (set_code s (call_code a)).
Proof. intros HD Ch H R C Cl Ha. apply (order_finish (e := af_column e bits nPol nChan T nt) o D HD NT k); trivial; [exact (inhabits [])|]. intros n na b x _ Nx. now apply af_encodes. Qed.
End codecs.

Lemma short_only_put E D k n b (x : tbb (data E)) : n <> 0 -> block_of E D k n b x -> b * n + N.of_nat (length x) <= k -> only_put E D n b x.
Proof.
  intros Zn (H1 & _ & H2) L i row Hi. assert (i < length x)%nat by (apply nth_error_Some; congruence).
  destruct (H2 (b * n + N.of_nat i)) as (row' & Hr & Hv); [lia|symmetry; apply (N.div_unique _ _ _ (N.of_nat i)); lia|].
  replace ((b * n + N.of_nat i) mod n) with (N.of_nat i) in Hr by (apply (N.mod_unique _ _ b); lia). rewrite Nat2N.id in Hr. congruence.
Qed.

Lemma weight_keep nPol nChan bits T nt (D : N -> list f32) k n na b x y : supported bits -> (1 <= nPol)%nat -> (forall r, Forall nonneg (D r)) ->
  block_of (weight_column bits nPol nChan T nt) D k n b x -> only_put (weight_column bits nPol nChan T nt) D n b x -> enc (weight_column bits nPol nChan T nt) n na x y ->
  exists rows, (forall sym0, length sym0 = nSymbols (weight_codec nPol nChan bits) (N.to_nat n) -> loadBlock (weight_codec nPol nChan bits) bits (N.to_nat n) na (block_ants T n b) y sym0 = Ok rows) /\
    forall r row, nth_error x r = Some row -> exists out, nth_error rows r = Some out /\ exists m, largest_weight nPol nChan (map (@visibilities f32) x) m /\ weights_good nPol nChan bits m row out.
Proof.
  intros Sb Hp Hn Hx Px. set (E := weight_column bits nPol nChan T nt) in *.
  intros (Lx & g & packed & sym & bufs & Tb & Ey). pose proof (le_rows _ _ Lx) as Lx'.
  pose proof (block_rows _ _ _ _ _ _ Hx) as Ro. destruct g.
  assert (Re : regular nPol nChan (map (@visibilities f32) x)).
  { split; trivial. apply Forall_forall. intros v Hv. apply in_map_iff in Hv as (rw & <- & Hi). etransitivity; [exact (Ro rw Hi)|]. apply Nat.mul_comm. }
  assert (Nn : Forall (Forall nonneg) (map (@visibilities f32) x)).
  { apply Forall_forall. intros v Hv. apply in_map_iff in Hv as (rw & <- & Hi). apply In_nth_error in Hi as (i & Hi). pose proof (Px i rw Hi) as Pi. change (visibilities rw = firstn (nSamp E) (D (b * n + N.of_nat i))) in Pi. rewrite Pi.
    apply Forall_forall. intros z Hz. pose proof (Hn (b * n + N.of_nat i)) as Q. rewrite Forall_forall in Q. apply Q.
    rewrite <- (firstn_skipn (nSamp E) (D (b * n + N.of_nat i))). apply in_or_app. now left. }
  destruct (weight_keeps nPol nChan bits (N.to_nat n) na (block_ants T n b) x packed sym Sb Re Nn Lx' Tb) as (m & Lm & K).
  destruct (keeps_rows (weight_codec nPol nChan bits) bits (N.to_nat n) na (block_ants T n b) tt x packed sym _ (fun meta row out => meta = [m] /\ weights_good nPol nChan bits m row out) y bufs Sb
    (weight_block nPol nChan bits (N.to_nat n) na (block_ants T n b) x packed sym Sb Re Nn Lx' Tb) K Ey) as (rows & Q1 & Q2).
  exists rows. split; trivial. intros r row Hr. destruct (Q2 r row Hr) as (out & Ho & _ & Hg). exists out. split; trivial. exists m. now split.
Qed.

Lemma weight_written_read nPol nChan bits T nt (o : Prop) (D : N -> list f32) k n na (s : state (weight_column bits nPol nChan T nt)) : supported bits -> (1 <= nPol)%nat -> (nt <> 0)%nat ->
  (forall r, nPol * nChan <= length (D r))%nat -> (forall r, Forall nonneg (D r)) ->
  in_order (e := weight_column bits nPol nChan T nt) o D k s -> status s = Running -> closed s = true -> code s = [] ->
  first_block (weight_column bits nPol nChan T nt) n -> antenna_count (weight_column bits nPol nChan T nt) n na -> n < k \/ rpb s <> 0 ->
  k mod n = 0 \/ in_order_alone (e := weight_column bits nPol nChan T nt) D k s ->
  forall nb s', nblk s <= nb -> reading (fun r => r < k) (opened _ (file s) nb n na) s' ->
  status s' = Running /\ forall r a, In (r, a) (outs s') -> r < k /\ exists out x m, a = AVals out /\ block_of (weight_column bits nPol nChan T nt) D k n (r / n) x /\
    only_put (weight_column bits nPol nChan T nt) D n (r / n) x /\ largest_weight nPol nChan (map (@visibilities f32) x) m /\
    weights_good nPol nChan bits m (DRow (fst (t_ants T r)) (snd (t_ants T r)) (firstn (nPol * nChan) (D r))) out.
Proof.
  intros Sb Hp NT HD Hn H R Cl C Fn An Lk Al nb s' Lnb Rd. set (E := weight_column bits nPol nChan T nt) in *.
  assert (Zn : n <> 0) by (destruct Fn; lia).
  destruct (written_read (weight_codec nPol nChan bits) false bits (nPol * nChan) T nt NT
    (fun x meta row out => exists m, largest_weight nPol nChan (map (@visibilities f32) x) m /\ weights_good nPol nChan bits m row out) o D k n na HD (only_put E D n)) with (s := s) (nb := nb) (s' := s') as (R' & Hr); trivial.
  { intros b x y Hb Hx Px Ey. exact (weight_keep nPol nChan bits T nt D k n na b x y Sb Hp Hn Hx Px Ey). }
  { intros b Hb. destruct Al as [Al|Al].
    - destruct (order_blocks (e := E) o D HD NT k n na s H R Cl C Fn An Lk) as (_ & _ & Q). destruct (Q b Hb) as (y & x & Q1 & Q2 & Q3). exists y, x. split; trivial. split; trivial. split; trivial.
      apply (short_only_put E D k n b x Zn Q3). destruct Q3 as (Q3 & _). pose proof (N.div_mod k n Zn) as Ek. rewrite Al in Ek.
      assert (Hq : b * n + n <= k) by (revert Ek; generalize (k / n); clear - Hb Zn; intros q Ek; destruct (N.lt_ge_cases b q); nia). eapply N.le_trans; [|exact Hq]. apply N.add_le_mono_l. exact Q3.
    - destruct (order_exact (e := E) o D HD NT k n na s Al R Cl C Fn An Lk) as (_ & _ & Q). destruct (Q b Hb) as (y & x & Q1 & Q2 & Q3 & Q4). exists y, x. split; trivial. split; trivial. split; trivial.
      apply (short_only_put E D k n b x Zn Q3). eapply N.le_trans; [apply N.add_le_mono_l; rewrite Q4; apply N.le_min_r|]. clear - Hb. lia. }
  split; trivial. intros r a Hin. destruct (Hr r a Hin) as (Hk & out & x & y & Ha & Hx & Px & Hy & m & Hm & Hg). split; trivial. exists out, x, m. auto.
Qed.

Lemma weight_finish nPol nChan bits T nt (D : N -> list f32) k (s : state (weight_column bits nPol nChan T nt)) (a : call (weight_column bits nPol nChan T nt)) : supported bits -> (1 <= nPol)%nat -> (nt <> 0)%nat ->
  (forall r, nPol * nChan <= length (D r))%nat -> (forall r, Forall nonneg (D r)) ->
  in_order_alone (e := weight_column bits nPol nChan T nt) D k s -> status s = Running -> code s = [] -> closed s = false ->
  (a = Put (e := weight_column bits nPol nChan T nt) k (D k) /\ k < 2 ^ 32) \/ a = Shutdown -> finishes (set_code s (call_code a)).
Proof.
  intros Sb Hp NT HD Hn H R C Cl Ha. set (E := weight_column bits nPol nChan T nt) in *. apply (alone_finish (e := E) False D HD NT k); trivial; [exact (inhabits [])|]. intros n na b x (_ & Wx) _ Ex.
  destruct (encodable_rows _ _ _ _ Ex) as (L1 & Ro & _).
  assert (Re : regular nPol nChan (map (@visibilities f32) x)).
  { split; trivial. apply Forall_forall. intros v Hv. apply in_map_iff in Hv as (rw & <- & Hi). etransitivity; [exact (Ro rw Hi)|]. apply Nat.mul_comm. }
  assert (Nn : Forall (Forall nonneg) (map (@visibilities f32) x)).
  { apply Forall_forall. intros v Hv. apply in_map_iff in Hv as (rw & <- & Hi). apply In_nth_error in Hi as (i & Hi). destruct (Wx i rw Hi) as (_ & _ & Pi). change (visibilities rw = firstn (nSamp E) (D (b * n + N.of_nat i))) in Pi. rewrite Pi.
    apply Forall_forall. intros z Hz. pose proof (Hn (b * n + N.of_nat i)) as Q. rewrite Forall_forall in Q. apply Q.
    rewrite <- (firstn_skipn (nSamp E) (D (b * n + N.of_nat i))). apply in_or_app. now left. }
  destruct (weight_block nPol nChan bits (N.to_nat n) na (fun _ => (0, 0)%nat) x _ _ Sb Re Nn L1 (zero_buffers bits (weight_codec nPol nChan bits) _ _)) as (y & p & sy & Ey & _).
  exists y. split; [clear - L1; unfold E, weight_column, stored_column in *; cbn [data] in *; lia|]. do 4 eexists. split; [apply zero_buffers|exact Ey].
Qed.
