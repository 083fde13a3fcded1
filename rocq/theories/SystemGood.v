(** What is read back from a table that was written in row order. *)
From Verif Require Import Base BaseLemmas Floats TimeBlockBuffer TbbSpec BitStream BytePacker File FileProofs StMan StManSpec StManProofs.
From Verif Require Import StochasticEncoder TimeBlockEncoders TbeSpec Weights WeightSpec Block BlockSpec BlockProofs BlockEnc BlockGood Column ColumnSpec ColumnProofs ColumnInv ColumnReach ColumnTerm ColumnData ColumnOrder ColumnWhole ColumnAmong ColumnRead
  StoredColumn StoredProofs System SystemSpec SystemLow SystemCols SystemInv SystemOrder SystemEnd SystemRead.
From Coq Require Import ZifyNat ZifyN.
Local Open Scope N_scope.

Local Arguments System.colenv : simpl never.

Section kept.
Variables (T : table) (nt : nat) (c : coldef) (L : f32).
Notation E := (stored_column (codec_of c) (af_of c) (bits_of c) (nPol_of c * nChan_of c) T nt).

Lemma kept_rows (D : N -> list (data E)) k n na b x y : coldef_ok c L -> data_ok c D -> (0 < nPol_of c)%nat -> (0 < nChan_of c)%nat ->
  n <> 0 -> n <= 2 ^ 32 -> b * n < k -> (af_of c = true -> forall r, fst (t_ants T r) < na /\ snd (t_ants T r) < na)%nat ->
  exact_block E D k n b x -> enc E n na x y ->
  exists rows, (forall sym0, length sym0 = nSymbols (codec_of c) (N.to_nat n) -> loadBlock (codec_of c) (bits_of c) (N.to_nat n) na (block_ants T n b) y sym0 = Ok rows) /\
    forall r row, nth_error x r = Some row -> exists out, nth_error rows r = Some out /\ kept c L na x (floats (nMetaFloats (codec_of c) (N.to_nat n) na) y) row out.
Proof.
  intros Co Da Hp Hc Zn N32 Hb Ha (Hx & Lx) Ey.
  destruct c as [e p ch bits|e p ch bits|e p ch bits|p ch bits]; cbn [codec_of af_of bits_of nPol_of nChan_of coldef_ok data_ok kept] in *.
  - destruct Co as (HB & V). exact (row_keep e bits p ch L T nt HB V D k n na b x y Hx Ey).
  - destruct Co as (HB & V). exact (rf_keep e bits p ch L T nt HB V D k n na b x y Hx Ey).
  - destruct Co as (HB & V). exact (af_keep e bits p ch L T nt HB V D k n na b x y Zn Hb Hc (Ha eq_refl) N32 Hx Ey).
  - refine (weight_keep p ch bits T nt D k n na b x y Co Hp Da Hx _ Ey). apply (short_only_put _ D k n b x Zn Hx). rewrite Lx. lia.
Qed.

Lemma kept_row (D : N -> list (data E)) k n na x y r : coldef_ok c L -> data_ok c D -> (0 < nPol_of c)%nat -> (0 < nChan_of c)%nat ->
  n <> 0 -> n <= 2 ^ 32 -> r < k -> (af_of c = true -> forall r, fst (t_ants T r) < na /\ snd (t_ants T r) < na)%nat ->
  exact_block E D k n (r / n) x -> enc E n na x y ->
  exists out, nth_error (dec E n na (r / n) y) (N.to_nat (r mod n)) = Some out /\
    kept c L na x (floats (nMetaFloats (codec_of c) (N.to_nat n) na) y) (DRow (fst (t_ants T r)) (snd (t_ants T r)) (firstn (nPol_of c * nChan_of c) (D r))) out.
Proof.
  intros Co Da Hp Hc Zn N32 Hr Ha Hx Ey. assert (Hb : r / n * n < k) by (pose proof (N.div_mod r n Zn); nia).
  destruct (kept_rows D k n na (r / n) x y Co Da Hp Hc Zn N32 Hb Ha Hx Ey) as (rows & Hl & Hg). destruct Hx as ((Hx1 & Hx2 & Hx3) & _).
  destruct (Hx3 r Hr eq_refl) as (row & Hrow & Hv). destruct (Hg _ _ Hrow) as (out & Ho & Hk). exists out. split.
  - cbn [dec stored_column]. rewrite Hl by apply repeat_length. exact Ho.
  - destruct (Hx2 _ _ Hrow) as (Ha' & _). rewrite N2Nat.id in Ha'. replace (r / n * n + r mod n) with r in Ha' by (pose proof (N.div_mod r n Zn); lia).
    match goal with |- kept _ _ _ _ _ ?u _ => replace u with row; [exact Hk|] end. destruct row as [a1 a2 v]. cbn [antenna1 antenna2 visibilities] in *. change (ants E) with (t_ants T) in Ha'. rewrite <- Ha'. cbn [fst snd]. now rewrite Hv.
Qed.
End kept.

Section SystemGood.
Context (cfg : nat -> coldef) (T : table) (nt A : nat).
Hypotheses (NT : nt <> 0%nat) (HA : forall r, (fst (t_ants T r) < A)%nat /\ (snd (t_ants T r) < A)%nat) (A32 : N.of_nat A < 2 ^ 32).
Notation sys := (sys cfg T nt).
Notation cst := (cst cfg T nt). Notation man := (man cfg T nt). Notation active := (active cfg T nt).
Notation ncol := (ncol cfg T nt). Notation running := (running cfg T nt). Notation colenv := (colenv cfg T nt).
Context (m0 : stman) (D : forall i, N -> list (data (colenv i))) (K : N) (L : nat -> f32).
Hypotheses (HD : forall i r, (nSamp (colenv i) <= length (D i r))%nat) (New : new_table cfg m0).
Hypotheses (Co : forall i, coldef_ok (cfg i) (L i)) (Da : forall i, data_ok (cfg i) (D i)).

(** the opened table, and what its blocks hold *)
Lemma written_opens ks S n na : sys_order cfg T nt m0 D K ks S -> running S -> fits32 (man S) -> all_closed S ->
  n < K -> first_block (colenv 0) n -> antenna_count (colenv 0) n na ->
  (forall i, (i < ncol S)%nat -> af_of (cfg i) = true -> forall r, fst (t_ants T r) < na /\ snd (t_ants T r) < na)%nat ->
  forall mo nr, reopens (man S) mo ->
  exists m2 m3, openMan nr mo = Ok m2 /\ prepareMan m2 = Ok m3 /\ columns m3 = columns (man S) /\ rowsPerBlock m3 = n /\ antennaCount m3 = N.of_nat na /\
    same_options m0 m3 /\ sstart cfg T nt (sopen cfg T nt m3) /\ fits32 m3 /\
    (forall i col r, nth_error (columns m3) i = Some col -> r < K -> exists y x out, file (cst S i) (r / n) = Some y /\ disk m3 col (r / n) = Some y /\ enc (colenv i) n na x y /\ exact_block (colenv i) (D i) K n (r / n) x /\
     nth_error (dec (colenv i) n na (r / n) y) (N.to_nat (r mod n)) = Some out /\
     kept (cfg i) (L i) na x (floats (nMetaFloats (codec_of (cfg i)) (N.to_nat n) na) y) (DRow (fst (t_ants T r)) (snd (t_ants T r)) (firstn (nPol_of (cfg i) * nChan_of (cfg i)) (D i r))) out) /\
    (forall i col r, nth_error (columns m3) i = Some col -> r < K ->
      exists y, disk m3 col (r / rowsPerBlock m3) = Some y /\ nth_error (dec (colenv i) (rowsPerBlock m3) (N.to_nat (antennaCount m3)) (r / rowsPerBlock m3) y) (N.to_nat (r mod rowsPerBlock m3)) <> None).
Proof.
  intros Or R Ft Cl Ln Fn An Af mo nr Ro.
  destruct (end_reopen cfg T nt A NT HA A32 m0 D K HD New ks S n na Or R Ft Cl Ln Fn An mo nr Ro) as (m2 & m3 & O & P & M1 & M2 & M3 & M4 & Ss & M5 & M6 & Bl).
  exists m2, m3. split; trivial. split; trivial. split; trivial. split; trivial. split; trivial.
  assert (Zn : n <> 0) by (destruct Fn; lia). assert (Zm : rowsPerBlock m3 <> 0) by congruence.
  assert (Nc : forall i col, nth_error (columns m3) i = Some col -> (i < ncol S)%nat) by (intros i col H; unfold System.ncol; rewrite <- M3; apply nth_error_Some; congruence).
  assert (De : forall i col, nth_error (columns m3) i = Some col -> (0 < nPol_of (cfg i))%nat /\ (0 < nChan_of (cfg i))%nat).
  { intros i col H. rewrite M3 in H. pose proof (so_reach cfg T nt A NT HA A32 m0 D K HD (New' cfg m0 New) ks S Or R Ft) as I.
    now destruct (si_described cfg T nt A _ S i col (o_si _ _ _ _ _ _ _ _ _ I) (nw_described _ _ New) H) as (_ & X). }
  assert (K32 : n <= 2 ^ 32).
  { destruct (end_columns cfg T nt A NT HA A32 m0 D K HD New ks S Or R Ft) as (k & Hk). assert (H0 : (0 < ncol S)%nat) by lia.
    pose proof (so_reach cfg T nt A NT HA A32 m0 D K HD (New' cfg m0 New) ks S Or R Ft) as I. pose proof (order_32 _ _ _ _ (o_order _ _ _ _ _ _ _ _ _ I 0%nat H0)) as X.
    rewrite (end_rows cfg T nt A NT HA A32 m0 D K HD New ks S Or R Ft Cl 0%nat H0) in X. lia. }
  assert (Na : N.to_nat (antennaCount m3) = na) by (rewrite M2; apply Nat2N.id).
  assert (Good : forall i col r, nth_error (columns m3) i = Some col -> r < K -> exists y x out, file (cst S i) (r / n) = Some y /\ disk m3 col (r / n) = Some y /\ enc (colenv i) n na x y /\ exact_block (colenv i) (D i) K n (r / n) x /\
     nth_error (dec (colenv i) n na (r / n) y) (N.to_nat (r mod n)) = Some out /\
     kept (cfg i) (L i) na x (floats (nMetaFloats (codec_of (cfg i)) (N.to_nat n) na) y) (DRow (fst (t_ants T r)) (snd (t_ants T r)) (firstn (nPol_of (cfg i) * nChan_of (cfg i)) (D i r))) out).
  { intros i col r Hc Hr. assert (Hb : r / n * n < K) by (pose proof (N.div_mod r n Zn); nia). destruct (Bl i col (r / n) Hc Hb) as (y & x & B0 & B1 & B2 & B3).
    destruct (De i col Hc) as (Dp & Dc). destruct (kept_row T nt (cfg i) (L i) (D i) K n na x y r (Co i) (Da i) Dp Dc Zn K32 Hr (Af i (Nc i col Hc)) B3 B2) as (out & B4 & B5).
    exists y, x, out. auto 10. }
  assert (Good' : forall i col r, nth_error (columns m3) i = Some col -> r < K ->
    exists y, disk m3 col (r / rowsPerBlock m3) = Some y /\ nth_error (dec (colenv i) (rowsPerBlock m3) (N.to_nat (antennaCount m3)) (r / rowsPerBlock m3) y) (N.to_nat (r mod rowsPerBlock m3)) <> None).
  { intros i col r Hc Hr. rewrite M1, Na. destruct (Good i col r Hc Hr) as (y & x & out & _ & G1 & _ & _ & G2 & _). exists y. split; trivial. congruence. }
  auto.
Qed.

Theorem written_read_all ks S n na : sys_order cfg T nt m0 D K ks S -> running S -> fits32 (man S) -> all_closed S ->
  n < K -> first_block (colenv 0) n -> antenna_count (colenv 0) n na ->
  (forall i, (i < ncol S)%nat -> af_of (cfg i) = true -> forall r, fst (t_ants T r) < na /\ snd (t_ants T r) < na)%nat ->
  forall mo nr, reopens (man S) mo ->
  exists m2 m3, openMan nr mo = Ok m2 /\ prepareMan m2 = Ok m3 /\ columns m3 = columns (man S) /\ rowsPerBlock m3 = n /\ antennaCount m3 = N.of_nat na /\ same_options m0 m3 /\
    forall S', sys_reading (fun r => r < K) (sopen cfg T nt m3) S' -> running S' /\ man S' = m3 /\
    forall i r a, (i < ncol S)%nat -> In (r, a) (outs (cst S' i)) -> r < K /\ exists out x y, a = AVals out /\
      exact_block (colenv i) (D i) K n (r / n) x /\ file (cst S i) (r / n) = Some y /\
      kept (cfg i) (L i) na x (floats (nMetaFloats (codec_of (cfg i)) (N.to_nat n) na) y) (DRow (fst (t_ants T r)) (snd (t_ants T r)) (firstn (nPol_of (cfg i) * nChan_of (cfg i)) (D i r))) out.
Proof.
  intros Or R Ft Cl Ln Fn An Af mo nr Ro.
  destruct (written_opens ks S n na Or R Ft Cl Ln Fn An Af mo nr Ro) as (m2 & m3 & O & P & M3 & M1 & M2 & Ss & M5 & M6 & Good & Good').
  exists m2, m3. split; trivial. split; trivial. split; trivial. split; trivial. split; trivial. split; trivial. intros S' Rd.
  assert (Zn : n <> 0) by (destruct Fn; lia). assert (Zm : rowsPerBlock m3 <> 0) by congruence.
  assert (Na : N.to_nat (antennaCount m3) = na) by (rewrite M2; apply Nat2N.id).
  destruct (rd_reading cfg T nt A NT HA A32 m3 (fun r => r < K) M5 Zm M6 (fun i col r Hc Hr _ => Good' i col r Hc Hr) S' Rd) as (R' & Em & _).
  split; trivial. split; trivial. intros i r a Hi Hin.
  destruct (nth_error (columns m3) i) as [col|] eqn:Hc; [|apply nth_error_None in Hc; unfold System.ncol in Hi; rewrite M3 in Hc; lia].
  destruct (rd_answers cfg T nt A NT HA A32 m3 (fun r => r < K) M5 Zm M6 (fun i col r Hc Hr _ => Good' i col r Hc Hr) S' i col Rd Hc r a Hin) as (Hr & _ & Ha). split; trivial.
  destruct (Good i col r Hc Hr) as (y & x & out & G0 & G1 & G2 & G3 & G4 & G5). exists out, x, y. rewrite M1, Na in Ha. split; [eapply Ha; eauto|]. auto.
Qed.
End SystemGood.
