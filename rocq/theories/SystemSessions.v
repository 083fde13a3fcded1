(** Tables that were written, and then opened and changed any number of times. *)
From Verif Require Import Base BaseLemmas Floats TimeBlockBuffer TbbSpec BitStream BytePacker File FileProofs StMan StManSpec HeaderProofs StManProofs.
From Verif Require Import StochasticEncoder TimeBlockEncoders TbeSpec Weights WeightSpec Block BlockSpec Column ColumnSpec ColumnProofs ColumnInv ColumnReach ColumnTerm ColumnData ColumnOrder ColumnWhole ColumnAmong ColumnRead
  StoredColumn StoredProofs System SystemSpec UpdateSpec RewriteSpec SessionSpec SystemLow SystemCols SystemInv SystemOrder SystemEnd SystemRead SystemTotal SystemGood SystemWrite SystemTerm SystemPuts SystemFinal SystemAll UpdateBlock ColumnUpdate SystemHeld SystemUpdate SystemRewrite SystemSame ColumnSession AppendSpec ColumnAppend SystemAppend.
From Coq Require Import ZifyNat ZifyN Eqdep_dec.
Local Open Scope N_scope.
Local Arguments System.colenv : simpl never.

Section sessions.
Context (cfg : nat -> coldef) (T : table) (nt : nat) (m0 : stman) (D : forall i, N -> list (data (colenv cfg T nt i))) (K : N) (L : nat -> f32) (n : N) (na : nat).
Hypothesis W : writable cfg T nt m0 D K L n na.
Notation sys := (sys cfg T nt).
Notation cst := (cst cfg T nt). Notation man := (man cfg T nt). Notation active := (active cfg T nt).
Notation ncol := (ncol cfg T nt). Notation running := (running cfg T nt). Notation colenv := (colenv cfg T nt).
Notation held := (held cfg T nt m0 K n na).
Notation stored := (stored_table cfg T nt m0 D K).
Let NT := wr_threads _ _ _ _ _ _ _ _ _ W.
Let HA := allA_below T (wr_ants _ _ _ _ _ _ _ _ _ W).
Let HD : forall i r, (nSamp (colenv i) <= length (D i r))%nat := wr_rows _ _ _ _ _ _ _ _ _ W.
Let New := wr_new _ _ _ _ _ _ _ _ _ W.
Let Co := wr_columns _ _ _ _ _ _ _ _ _ W.
Let Da := wr_data _ _ _ _ _ _ _ _ _ W.
Let Ln := wr_more _ _ _ _ _ _ _ _ _ W.
Let Fn := wr_first _ _ _ _ _ _ _ _ _ W.
Let An := wr_count _ _ _ _ _ _ _ _ _ W.
Let Nm := wr_name _ _ _ _ _ _ _ _ _ W.
Let Af := wr_af _ _ _ _ _ _ _ _ _ W.
Let Tot := wr_size _ _ _ _ _ _ _ _ _ W.

Lemma Zn : 0 < n. Proof. apply Fn. Qed.

(** a table that was written *)
Lemma written_held ks S : sys_order cfg T nt m0 D K ks S -> all_closed S -> n < 2 ^ 32 /\ N.of_nat na < 2 ^ 32 /\ held (man S).
Proof.
  intros Or Cl. destruct (order_well cfg T nt allA NT HA allA_32 m0 D K L HD New Co n na Ln Fn An Nm Af Tot ks S Or) as (R & Ft & B8). destruct (all_so cfg T nt m0 D K L n na W ks S Or) as (I & _).
  pose proof (o_si _ _ _ _ _ _ _ _ _ I) as Is.
  destruct (end_columns cfg T nt allA NT HA allA_32 m0 D K HD New ks S Or R Ft) as (k & Hk). pose proof Zn as Zn.
  destruct (end_size cfg T nt allA NT HA allA_32 m0 D K HD New ks S n na Or R Ft Cl Ln Fn An) as (E1 & E2).
  pose proof (end_blocks cfg T nt allA NT HA allA_32 m0 D K HD New ks S n na Or R Ft Cl Ln Fn An) as Eb.
  pose proof (end_block cfg T nt allA NT HA allA_32 m0 D K HD New ks S n na Or R Ft Cl Ln Fn An) as Ey.
  destruct (o_hist _ _ _ _ _ _ _ _ _ I) as [(Z & _)|(n' & na' & m1 & ws & H1 & H2 & H3 & H4 & H5 & H6 & H7 & H8)]; [exfalso; lia|].
  destruct (H1 0%nat) as (F1 & F2). assert (n' = n) by exact (first_block_unique _ _ _ F1 Fn). subst n'. assert (na' = na) by exact (antenna_count_unique _ _ _ _ F2 An). subst na'. clear F1 F2.
  assert (La : N.of_nat na < 2 ^ 32) by (pose proof allA_32; clear - H3 H; lia). split; trivial. split; trivial.
  destruct (init_manager _ _ _ _ H2 La H4) as (M1 & M2 & M3 & M4 & M5). destruct (StManProofs.writes_settings ws m1) as (W0 & W1 & W2 & W3).
  assert (Cs : columns (man S) = columns m1) by (rewrite H5; apply SystemOrder.writes_settings).
  assert (Hk' : Datatypes.S k = length (columns m1)) by (rewrite <- Cs; exact Hk).
  assert (Lk : nth_error (columns m1) k <> None) by (apply nth_error_Some; lia).
  destruct (nth_error (columns m1) k) as [w|] eqn:Hw; [clear Lk|easy].
  assert (X : 0 < nBlocksInFile (man S)) by (apply Eb; lia).
  destruct (Ey k (nBlocksInFile (man S) - 1)) as (_ & _ & yl & xl & _ & Fl & _); [lia|apply Eb; lia|].
  destruct (H7 k w _ yl Hw Fl) as (dl & Hdl).
  constructor; trivial.
  - exists m1, ws, w, k, dl. split; [exact H4|]. split; [exact Hk'|]. split; [exact Hw|]. split; [exact H6|]. split; [exact Hdl|]. rewrite H5. auto.
  - apply (s_small _ _ _ _ _ _ Is).
  - apply (s_begun _ _ _ _ _ _ Is).
  - intros i col b Hc Hb. assert (Hi : (i < ncol S)%nat) by (unfold System.ncol; apply nth_error_Some; congruence).
    apply Eb in Hb. destruct (Ey i b Hi Hb) as (_ & _ & y & x & _ & Fy & Eny & Xb). exists y. split; [apply (s_file _ _ _ _ _ _ Is i col b y Hc Fy)|].
    destruct (si_described cfg T nt allA _ S i col Is (nw_described _ _ New) Hc) as (_ & P1 & P2). destruct Xb as (Xb & Lx).
    apply (enc_sound T nt (cfg i) (L i) n na x y (Co i) P1 Eny); [|apply Af; rewrite <- (all_ncol cfg T nt m0 D K L n na W ks S Or); exact Hi].
    intros row Hin. split.
    + apply In_nth_error in Hin as (q & Hq). destruct Xb as (_ & Xb & _). exact (proj2 (Xb q row Hq)).
    + revert row Hin. apply row_ok_all. refine (weights_nonneg (cfg i) (D i) T nt n b x (Da i) _). apply (short_only_put _ (D i) K n b x); [lia|exact Xb|]. rewrite Lx. lia.
Qed.

Notation okK := (fun r : N => r < K).

Lemma held_good m i col r : held m -> nth_error (columns m) i = Some col -> r < K ->
  exists y, disk m col (r / rowsPerBlock m) = Some y /\ nth_error (dec (colenv i) (rowsPerBlock m) (N.to_nat (antennaCount m)) (r / rowsPerBlock m) y) (N.to_nat (r mod rowsPerBlock m)) <> None.
Proof.
  intros H Hc Hr. pose proof Zn as Zn. rewrite (hd_rows _ _ _ _ _ _ _ _ H), (hd_ants _ _ _ _ _ _ _ _ H), Nat2N.id.
  destruct (held_disk cfg T nt m0 K n na m i col (r / n) H Hc) as (y & D1 & _ & Sy).
  { apply (hd_blocks _ _ _ _ _ _ _ _ H). pose proof (N.mul_div_le r n ltac:(lia)). lia. }
  exists y. split; trivial. apply nth_error_Some. destruct (Sy (r / n)) as (Q & _). pose proof (N.mod_upper_bound r n ltac:(lia)). eapply Nat.lt_le_trans; [|apply Nat.eq_le_incl; symmetry; exact Q]. lia.
Qed.

Lemma held_from m m3 : n < 2 ^ 32 -> N.of_nat na < 2 ^ 32 -> held m -> opened_from m m3 -> held m3 /\ columns m3 = columns m /\ nBlocksInFile m3 = nBlocksInFile m /\ same_options m0 m3 /\
  (forall b col k, readCompressedData m3 b col k = readCompressedData m b col k).
Proof.
  intros N32 Na32 H (mo & nr & m2 & Ro & O & P). destruct (held_open cfg T nt m0 K n na New Zn N32 Na32 Tot m mo nr H Ro) as (m2' & m3' & O' & P' & H3 & Q1 & Q2 & Q3 & Q4 & Q5).
  assert (m2' = m2) by congruence. subst m2'. assert (m3' = m3) by congruence. subst m3'. auto.
Qed.

End sessions.

Lemma writable_rows cfg T nt m0 D K K2 L n na : writable cfg T nt m0 D K L n na -> n < K2 -> writable cfg T nt m0 D K2 L n na.
Proof. intros [] H. constructor; trivial. Qed.

Theorem stored_held_rows cfg T nt m0 D L n na K m : stored_table cfg T nt m0 D K m -> writable cfg T nt m0 D K L n na -> n < 2 ^ 32 /\ N.of_nat na < 2 ^ 32 /\ held cfg T nt m0 K n na m.
Proof.
  induction 1 as [K ks S Or Cl|K ks S0 S Or Id Al Rd Cl|K m m3 S _ IH Op Rd Cl|K m m3 l bs S _ IH Op Hs Cl|K m m3 l S _ IH Op Hs Cl|K K2 m m3 D2 ks S _ IH Op (r0 & R1 & R2) K12 Pd Hs Cl]; intros W;
    pose proof (Zn cfg T nt m0 D _ L n na W) as Zn.
  - eapply written_held; eauto.
  - exact (SystemSame.same_held cfg T nt m0 D K L n na W ks S0 Or Id Al S Rd Cl).
  - destruct (IH W) as (N32 & Na32 & H). split; trivial. split; trivial. destruct (held_from cfg T nt m0 D K L n na W m m3 N32 Na32 H Op) as (H3 & _).
    destruct (rd_reading cfg T nt allA (wr_threads _ _ _ _ _ _ _ _ _ W) (allA_below T (wr_ants _ _ _ _ _ _ _ _ _ W)) allA_32 m3 (fun r => r < K) (held_start cfg T nt m0 K n na (wr_new _ _ _ _ _ _ _ _ _ W) Zn N32 Na32 (wr_size _ _ _ _ _ _ _ _ _ W) m3 H3) ltac:(rewrite (hd_rows _ _ _ _ _ _ _ _ H3); lia)
      (held_fits cfg T nt m0 K n na (wr_new _ _ _ _ _ _ _ _ _ W) Zn N32 Na32 (wr_size _ _ _ _ _ _ _ _ _ W) m3 H3) (fun i col r Hc Hr _ => held_good cfg T nt m0 D K L n na W m3 i col r H3 Hc Hr) S Rd) as (_ & -> & _). exact H3.
  - destruct (IH W) as (N32 & Na32 & H). split; trivial. split; trivial. destruct (held_from cfg T nt m0 D K L n na W m m3 N32 Na32 H Op) as (H3 & _).
    exact (up_held _ _ _ _ _ _ _ _ _ _ _ _ (up_session cfg T nt allA (wr_threads _ _ _ _ _ _ _ _ _ W) (allA_below T (wr_ants _ _ _ _ _ _ _ _ _ W)) allA_32 m0 K L n na (wr_new _ _ _ _ _ _ _ _ _ W) (wr_columns _ _ _ _ _ _ _ _ _ W) Zn N32 Na32 (wr_size _ _ _ _ _ _ _ _ _ W) (wr_af _ _ _ _ _ _ _ _ _ W) m3 (fun r => r < K) H3 (fun r H => H) l bs S Hs)).
  - destruct (IH W) as (N32 & Na32 & H). split; trivial. split; trivial. destruct (held_from cfg T nt m0 D K L n na W m m3 N32 Na32 H Op) as (H3 & _).
    exact (rw_held _ _ _ _ _ _ _ _ _ _ _ (rw_session cfg T nt allA (wr_threads _ _ _ _ _ _ _ _ _ W) (allA_below T (wr_ants _ _ _ _ _ _ _ _ _ W)) allA_32 m0 K L n na (wr_new _ _ _ _ _ _ _ _ _ W) (wr_columns _ _ _ _ _ _ _ _ _ W) Zn N32 Na32 (wr_size _ _ _ _ _ _ _ _ _ W) (wr_af _ _ _ _ _ _ _ _ _ W) m3 (fun r => r < K) H3 (fun r H => H) l S Hs)).
  - assert (Ln : n < K).
    { destruct (N.lt_ge_cases n K) as [Q|Q]; [exact Q|exfalso]. destruct (wr_first _ _ _ _ _ _ _ _ _ W) as (_ & Q2 & _). apply R2, Q2. lia. }
    pose proof (writable_rows cfg T nt m0 D K2 K L n na W Ln) as W1. destruct (IH W1) as (N32 & Na32 & H). split; trivial. split; trivial. destruct (held_from cfg T nt m0 D K L n na W1 m m3 N32 Na32 H Op) as (H3 & _).
    exact (proj1 (SystemAppend.append_closed cfg T nt allA (wr_threads _ _ _ _ _ _ _ _ _ W) (allA_below T (wr_ants _ _ _ _ _ _ _ _ _ W)) allA_32 m0 K L n na (wr_new _ _ _ _ _ _ _ _ _ W) (wr_columns _ _ _ _ _ _ _ _ _ W) Zn N32 Na32 (wr_size _ _ _ _ _ _ _ _ _ W) (wr_af _ _ _ _ _ _ _ _ _ W) m3 K2 D2 H3 K12 Pd ks S Hs Cl)).
Qed.

Section sessions.
Context (cfg : nat -> coldef) (T : table) (nt : nat) (m0 : stman) (D : forall i, N -> list (data (colenv cfg T nt i))) (K : N) (L : nat -> f32) (n : N) (na : nat).
Hypothesis W : writable cfg T nt m0 D K L n na.
Notation sys := (sys cfg T nt).
Notation cst := (cst cfg T nt). Notation man := (man cfg T nt). Notation active := (active cfg T nt).
Notation ncol := (ncol cfg T nt). Notation running := (running cfg T nt). Notation colenv := (colenv cfg T nt).
Notation held := (held cfg T nt m0 K n na).
Notation stored := (stored_table cfg T nt m0 D K).
Let NT := wr_threads _ _ _ _ _ _ _ _ _ W.
Let HA := allA_below T (wr_ants _ _ _ _ _ _ _ _ _ W).
Let HD : forall i r, (nSamp (colenv i) <= length (D i r))%nat := wr_rows _ _ _ _ _ _ _ _ _ W.
Let New := wr_new _ _ _ _ _ _ _ _ _ W.
Let Co := wr_columns _ _ _ _ _ _ _ _ _ W.
Let Da := wr_data _ _ _ _ _ _ _ _ _ W.
Let Ln := wr_more _ _ _ _ _ _ _ _ _ W.
Let Fn := wr_first _ _ _ _ _ _ _ _ _ W.
Let An := wr_count _ _ _ _ _ _ _ _ _ W.
Let Nm := wr_name _ _ _ _ _ _ _ _ _ W.
Let Af := wr_af _ _ _ _ _ _ _ _ _ W.
Let Tot := wr_size _ _ _ _ _ _ _ _ _ W.

Notation okK := (fun r : N => r < K).
Let Zn : 0 < n := Zn cfg T nt m0 D K L n na W.
Let held_from := held_from cfg T nt m0 D K L n na W.
Let held_good := held_good cfg T nt m0 D K L n na W.

Theorem stored_held m : stored m -> n < 2 ^ 32 /\ N.of_nat na < 2 ^ 32 /\ held m.
Proof. intros H. exact (stored_held_rows cfg T nt m0 D L n na K m H W). Qed.

Lemma same_held m m3 : held m -> held m3 -> columns m3 = columns m -> nBlocksInFile m3 = nBlocksInFile m -> (forall b col k, readCompressedData m3 b col k = readCompressedData m b col k) ->
  (forall i b, held_block cfg T nt m3 i b = held_block cfg T nt m i b) /\ (forall i r, held_row cfg T nt m3 i r = held_row cfg T nt m i r).
Proof.
  intros H H3 Cs Nb Rd. assert (X : forall i b, held_block cfg T nt m3 i b = held_block cfg T nt m i b).
  { intros i b. unfold held_block. rewrite Cs. destruct (nth_error _ _); trivial. unfold disk. now rewrite Nb, Rd. }
  split; trivial. intros i r. unfold held_row, stored_row. rewrite X. rewrite (hd_rows _ _ _ _ _ _ _ _ H), (hd_rows _ _ _ _ _ _ _ _ H3), (hd_ants _ _ _ _ _ _ _ _ H), (hd_ants _ _ _ _ _ _ _ _ H3). reflexivity.
Qed.

Lemma held_rows m i r : held m -> (i < length (columns m))%nat -> r < K -> exists v, held_row cfg T nt m i r = Some v.
Proof.
  intros H Hi Hr. destruct (nth_error (columns m) i) as [col|] eqn:Hc; [|apply nth_error_None in Hc; lia]. destruct (held_good m i col r H Hc Hr) as (y & D1 & D2).
  unfold held_row, stored_row, held_block. rewrite Hc, D1. revert D2. match goal with |- ?u <> None -> _ => destruct u as [v|] end; [exists v; reflexivity|easy].
Qed.

(** ** Results *)
Theorem stored_opens m mo nr : stored m -> reopens m mo -> exists m2 m3, openMan nr mo = Ok m2 /\ prepareMan m2 = Ok m3 /\
  columns m3 = columns m /\ rowsPerBlock m3 = n /\ antennaCount m3 = N.of_nat na /\ same_options m0 m3 /\
  (forall i b, held_block cfg T nt m3 i b = held_block cfg T nt m i b) /\ (forall i r, held_row cfg T nt m3 i r = held_row cfg T nt m i r) /\
  forall i r, (i < length (columns m3))%nat -> r < K -> exists v, held_row cfg T nt m3 i r = Some v.
Proof.
  intros Sd Ro. destruct (stored_held m Sd) as (N32 & Na32 & H). destruct (held_open cfg T nt m0 K n na New Zn N32 Na32 Tot m mo nr H Ro) as (m2 & m3 & O & P & H3 & Q1 & Q2 & Q3 & Q4 & Q5).
  exists m2, m3. split; trivial. split; trivial. split; trivial. split; [apply H3|]. split; [apply H3|]. split; trivial.
  destruct (same_held m m3 H H3 Q1 Q3 Q5) as (X1 & X2). split; trivial. split; trivial. intros i r. now apply held_rows.
Qed.

Theorem stored_session m m3 l bs S : stored m -> opened_from m m3 -> sys_updating cfg T nt okK m3 l bs S -> running S /\ sfinishes S.
Proof.
  intros Sd Op Hs. destruct (stored_held m Sd) as (N32 & Na32 & H). destruct (held_from m m3 N32 Na32 H Op) as (H3 & _). split.
  - exact (up_run _ _ _ _ _ _ _ _ _ _ _ _ (up_session cfg T nt allA NT HA allA_32 m0 K L n na New Co Zn N32 Na32 Tot Af m3 okK H3 (fun r H => H) l bs S Hs)).
  - exact (session_finishes cfg T nt allA NT HA allA_32 m0 K L n na New Co Zn N32 Na32 Tot Af m3 okK H3 (fun r H => H) l bs S Hs).
Qed.

Theorem stored_get m m3 l bs S i r S1 S2 : stored m -> opened_from m m3 -> sys_updating cfg T nt okK m3 l bs S -> r < K -> bs i <= r / n -> scall cfg T nt S S1 i (Get r) -> srun S1 S2 -> idle S2 ->
  exists v, outs (cst S2 i) = (r, AVals v) :: outs (cst S i) /\ row_now cfg T nt m l i r = Some v.
Proof.
  intros Sd Op Hs Hr Hb Sc Run Id. destruct (stored_held m Sd) as (N32 & Na32 & H). destruct (held_from m m3 N32 Na32 H Op) as (H3 & Q1 & Q2 & Q3 & Q4).
  destruct (session_get cfg T nt allA NT HA allA_32 m0 K L n na New Co Zn N32 Na32 Tot Af m3 okK H3 (fun r H => H) l bs S i r S1 S2 Hs Hr Hb Sc Run Id) as (v & V1 & V2).
  exists v. split; trivial. rewrite <- V2. unfold row_now. now rewrite (proj2 (same_held m m3 H H3 Q1 Q2 Q4)).
Qed.

Theorem stored_closed m m3 l bs S : stored m -> opened_from m m3 -> sys_updating cfg T nt okK m3 l bs S -> all_closed S ->
  stored (man S) /\ columns (man S) = columns m /\ forall i, (i < length (columns m))%nat ->
    (forall b, (forall r, r / n = b -> last_put cfg T nt l i r = None) -> held_block cfg T nt (man S) i b = held_block cfg T nt m i b) /\
    (forall r, (forall r', r' / n = r / n -> last_put cfg T nt l i r' = None) -> held_row cfg T nt (man S) i r = held_row cfg T nt m i r) /\
    (forall b r0, r0 / n = b -> last_put cfg T nt l i r0 <> None -> exists x y, held_block cfg T nt (man S) i b = Some y /\ enc (colenv i) n na x y /\ length x = N.to_nat n /\
      forall k row, nth_error x k = Some row -> (antenna1 row, antenna2 row) = t_ants T (b * n + N.of_nat k) /\ row_now cfg T nt m l i (b * n + N.of_nat k) = Some (visibilities row) /\
        exists out, held_row cfg T nt (man S) i (b * n + N.of_nat k) = Some out /\
          kept (cfg i) (L i) na x (floats (nMetaFloats (codec_of (cfg i)) (N.to_nat n) na) y) row out).
Proof.
  intros Sd Op Hs Cl. split; [eapply sd_updated; eauto|]. destruct (stored_held m Sd) as (N32 & Na32 & H). destruct (held_from m m3 N32 Na32 H Op) as (H3 & Q1 & Q2 & Q3 & Q4).
  destruct (session_closed cfg T nt allA NT HA allA_32 m0 K L n na New Co Zn N32 Na32 Tot Af m3 okK H3 (fun r H => H) l bs S Hs Cl) as (Hh & C1 & C2 & C3).
  destruct (same_held m m3 H H3 Q1 Q2 Q4) as (X1 & X2).
  split; [congruence|]. intros i Hi. rewrite <- Q1 in Hi. destruct (C3 i Hi) as (U1 & U2). split; [|split].
  - intros b Hb. rewrite <- X1. now apply U1.
  - intros r Hr. unfold held_row, stored_row. rewrite (hd_rows _ _ _ _ _ _ _ _ H), (hd_rows _ _ _ _ _ _ _ _ Hh), (hd_ants _ _ _ _ _ _ _ _ H), (hd_ants _ _ _ _ _ _ _ _ Hh).
    rewrite (U1 (r / n)) by exact Hr. now rewrite X1.
  - intros b r0 Hr0 Hp. destruct (U2 b r0 Hr0 Hp) as (x & y & Y1 & Y2 & Y3 & Y4). exists x, y. split; trivial. split; trivial. split; trivial.
    intros k row Hk. destruct (Y4 k row Hk) as (Z1 & Z2 & Z3). split; trivial. split; [|exact Z3]. unfold row_now in *. now rewrite <- X2.
Qed.

(** ** Rows read and put in any order *)
Theorem rewritten_session m m3 l S : stored m -> opened_from m m3 -> sys_rewriting cfg T nt okK m3 l S -> running S /\ sfinishes S.
Proof.
  intros Sd Op Hs. destruct (stored_held m Sd) as (N32 & Na32 & H). destruct (held_from m m3 N32 Na32 H Op) as (H3 & _). split.
  - exact (rw_run _ _ _ _ _ _ _ _ _ _ _ (rw_session cfg T nt allA NT HA allA_32 m0 K L n na New Co Zn N32 Na32 Tot Af m3 okK H3 (fun r H => H) l S Hs)).
  - exact (rw_finishes cfg T nt allA NT HA allA_32 m0 K L n na New Co Zn N32 Na32 Tot Af m3 okK H3 (fun r H => H) l S Hs).
Qed.

Theorem rewritten_answers m m3 l S i : stored m -> opened_from m m3 -> sys_rewriting cfg T nt okK m3 l S -> idle S -> (i < length (columns m))%nat ->
  exists c, runs (e := colenv i) n na (held_block cfg T nt m3 i) (calls_of cfg T nt l i) c /\ given c = outs (cst S i).
Proof.
  intros Sd Op Hs Id Hi. destruct (stored_held m Sd) as (N32 & Na32 & H). destruct (held_from m m3 N32 Na32 H Op) as (H3 & Q1 & _). rewrite <- Q1 in Hi.
  exact (rw_answers cfg T nt allA NT HA allA_32 m0 K L n na New Co Zn N32 Na32 Tot Af m3 okK H3 (fun r H => H) l S i Hs Id Hi).
Qed.

Theorem rewritten_put_read m m3 l S i r d l0 mid : stored m -> opened_from m m3 -> sys_rewriting cfg T nt okK m3 l S -> idle S -> (i < length (columns m))%nat ->
  calls_of cfg T nt l i = CGet r :: mid ++ CPut r d :: l0 -> never_put n mid (r / n) ->
  exists out rest, outs (cst S i) = (r, AVals out) :: rest /\ (out = firstn (nPol_of (cfg i) * nChan_of (cfg i)) d \/
    exists v x y row, length v = N.to_nat n /\ table_rows (e := colenv i) n (r / n) x v /\ enc (colenv i) n na x y /\ nth_error x (N.to_nat (r mod n)) = Some row /\ visibilities row = firstn (nPol_of (cfg i) * nChan_of (cfg i)) d /\
      kept (cfg i) (L i) na x (floats (nMetaFloats (codec_of (cfg i)) (N.to_nat n) na) y) row out).
Proof.
  intros Sd Op Hs Id Hi. destruct (stored_held m Sd) as (N32 & Na32 & H). destruct (held_from m m3 N32 Na32 H Op) as (H3 & Q1 & _). rewrite <- Q1 in Hi.
  exact (rw_put_read cfg T nt allA NT HA allA_32 m0 K L n na New Co Zn N32 Na32 Tot Af m3 okK H3 (fun r H => H) l S i r d l0 mid Hs Id Hi).
Qed.

Theorem rewritten_unchanged m m3 l S i r l0 : stored m -> opened_from m m3 -> sys_rewriting cfg T nt okK m3 l S -> idle S -> (i < length (columns m))%nat ->
  calls_of cfg T nt l i = CGet r :: l0 -> never_put n l0 (r / n) -> exists out rest, outs (cst S i) = (r, AVals out) :: rest /\ held_row cfg T nt m i r = Some out.
Proof.
  intros Sd Op Hs Id Hi El Nv. destruct (stored_held m Sd) as (N32 & Na32 & H). destruct (held_from m m3 N32 Na32 H Op) as (H3 & Q1 & Q2 & Q3 & Q4). rewrite <- Q1 in Hi.
  destruct (rw_unchanged cfg T nt allA NT HA allA_32 m0 K L n na New Co Zn N32 Na32 Tot Af m3 okK H3 (fun r H => H) l S i r l0 Hs Id Hi El Nv) as (out & rest & O1 & O2).
  exists out, rest. split; trivial. now rewrite <- (proj2 (same_held m m3 H H3 Q1 Q2 Q4)).
Qed.

Theorem rewritten_closed m m3 l S : stored m -> opened_from m m3 -> sys_rewriting cfg T nt okK m3 l S -> all_closed S ->
  stored (man S) /\ columns (man S) = columns m /\ forall i, (i < length (columns m))%nat ->
    (forall b, never_put n (calls_of cfg T nt l i) b -> held_block cfg T nt (man S) i b = held_block cfg T nt m i b) /\
    exists c, runs (e := colenv i) n na (held_block cfg T nt m3 i) (calls_of cfg T nt l i) c /\ given c = outs (cst S i) /\
      forall b, agrees n na b (put_away c b) (held_block cfg T nt (man S) i b) /\
        forall v, put_away c b = Some (Coded v) -> length v = N.to_nat n /\ exists x y, held_block cfg T nt (man S) i b = Some y /\ table_rows (e := colenv i) n b x v /\ enc (colenv i) n na x y /\
          forall k row, nth_error x k = Some row -> exists out, held_row cfg T nt (man S) i (b * n + N.of_nat k) = Some out /\
            kept (cfg i) (L i) na x (floats (nMetaFloats (codec_of (cfg i)) (N.to_nat n) na) y) row out.
Proof.
  intros Sd Op Hs Cl. split; [eapply sd_rewritten; eauto|]. destruct (stored_held m Sd) as (N32 & Na32 & H). destruct (held_from m m3 N32 Na32 H Op) as (H3 & Q1 & Q2 & Q3 & Q4).
  destruct (rw_closed cfg T nt allA NT HA allA_32 m0 K L n na New Co Zn N32 Na32 Tot Af m3 okK H3 (fun r H => H) l S Hs Cl) as (Hh & C1 & C2 & C3).
  destruct (same_held m m3 H H3 Q1 Q2 Q4) as (X1 & X2). split; [congruence|]. intros i Hi. rewrite <- Q1 in Hi. destruct (C3 i Hi) as (c & Rn & Gv & Ag & Fi & Kp). split.
  - intros b Nv. rewrite <- X1. now apply Kp.
  - exists c. split; [exact Rn|]. split; trivial. intros b. split; trivial. intros v Ev. pose proof (Fi b v Ev) as Fv. split; [apply Fv|].
    specialize (Ag b). rewrite Ev in Ag. destruct Ag as (y & Ey & Cy). destruct (codes_kept cfg T nt allA NT HA allA_32 m0 K L n na New Co Zn N32 Na32 Tot Af m3 okK H3 (fun r H => H) i b v y Hi Fv Cy) as (x & Tr & En & Kx).
    exists x, y. split; trivial. split; trivial. split; trivial. intros k row Hk. destruct (Kx k row Hk) as (out & O1 & O2). exists out. split; trivial.
    unfold held_row, stored_row. rewrite (hd_rows _ _ _ _ _ _ _ _ Hh), (hd_ants _ _ _ _ _ _ _ _ Hh), Nat2N.id.
    assert (Hkn : N.of_nat k < n) by (assert (k < length x)%nat by (apply nth_error_Some; congruence); destruct Tr as (Lx & _); destruct Fv as (Lv & _); clear - H0 Lx Lv; lia).
    assert (E1 : (b * n + N.of_nat k) / n = b) by (symmetry; apply (N.div_unique _ _ _ (N.of_nat k)); clear - Hkn; lia).
    assert (E2 : (b * n + N.of_nat k) mod n = N.of_nat k) by (symmetry; apply (N.mod_unique _ _ b); clear - Hkn; lia).
    rewrite E1, E2, Nat2N.id, Ey. exact O1.
Qed.

(** ** Rows put at the end *)
Theorem extended_session m m3 K2 D2 ks S : stored m -> opened_from m m3 -> K < K2 -> (forall i r, K <= r < K2 -> put_ok cfg T nt i (D2 i r)) -> sys_appending cfg T nt K K2 m3 D2 ks S -> running S /\ sfinishes S.
Proof.
  intros Sd Op K12 Pd Hs. destruct (stored_held m Sd) as (N32 & Na32 & H). destruct (held_from m m3 N32 Na32 H Op) as (H3 & _). split.
  - exact (append_running cfg T nt allA NT HA allA_32 m0 K L n na New Co Zn N32 Na32 Tot Af m3 K2 D2 H3 K12 Pd ks S Hs).
  - exact (append_finishes cfg T nt allA NT HA allA_32 m0 K L n na New Co Zn N32 Na32 Tot Af m3 K2 D2 H3 K12 Pd ks S Hs).
Qed.

Theorem extended_closed m m3 K2 D2 ks S : stored m -> opened_from m m3 -> K < K2 -> (forall i r, K <= r < K2 -> put_ok cfg T nt i (D2 i r)) -> sys_appending cfg T nt K K2 m3 D2 ks S -> all_closed S ->
  stored_table cfg T nt m0 D K2 (man S) /\ writable cfg T nt m0 D K2 L n na /\ columns (man S) = columns m /\ forall i, (i < length (columns m))%nat ->
    (forall b, (b + 1) * n <= K -> held_block cfg T nt (man S) i b = held_block cfg T nt m i b) /\
    (forall r, (r / n + 1) * n <= K -> held_row cfg T nt (man S) i r = held_row cfg T nt m i r) /\
    (forall b, K < (b + 1) * n -> b * n < K2 -> exists x y, held_block cfg T nt (man S) i b = Some y /\ enc (colenv i) n na x y /\ (length x <= N.to_nat n)%nat /\
      (forall r, r < K2 -> r / n = b -> nth_error x (N.to_nat (r mod n)) <> None) /\
      (K <= b * n -> exact_block (colenv i) (D2 i) K2 n b x) /\
      forall k row, nth_error x k = Some row -> (antenna1 row, antenna2 row) = t_ants T (b * n + N.of_nat k) /\
        (if K <=? b * n + N.of_nat k then if b * n + N.of_nat k <? K2 then visibilities row = firstn (nPol_of (cfg i) * nChan_of (cfg i)) (D2 i (b * n + N.of_nat k))
           else b * n < K /\ held_row cfg T nt m i (b * n + N.of_nat k) = Some (visibilities row)
         else held_row cfg T nt m i (b * n + N.of_nat k) = Some (visibilities row)) /\
        exists out, held_row cfg T nt (man S) i (b * n + N.of_nat k) = Some out /\
          kept (cfg i) (L i) na x (floats (nMetaFloats (codec_of (cfg i)) (N.to_nat n) na) y) row out).
Proof.
  intros Sd Op K12 Pd Hs Cl. split.
  { eapply sd_extended; eauto. exists n. split; [exact Ln|]. apply Fn. }
  split; [apply (writable_rows cfg T nt m0 D K); [exact W|]; revert Ln K12; clear; intros; lia|].
  destruct (stored_held m Sd) as (N32 & Na32 & H). destruct (held_from m m3 N32 Na32 H Op) as (H3 & Q1 & Q2 & Q3 & Q4).
  destruct (SystemAppend.append_closed cfg T nt allA NT HA allA_32 m0 K L n na New Co Zn N32 Na32 Tot Af m3 K2 D2 H3 K12 Pd ks S Hs Cl) as (Hh & C1 & C3).
  destruct (same_held m m3 H H3 Q1 Q2 Q4) as (X1 & X2). split; [congruence|]. intros i Hi. rewrite <- Q1 in Hi. destruct (C3 i Hi) as (U1 & U2). split; [|split].
  - intros b Hb. rewrite <- X1. now apply U1.
  - intros r Hr. unfold held_row, stored_row. rewrite (hd_rows _ _ _ _ _ _ _ _ H), (hd_rows _ _ _ _ _ _ _ _ Hh), (hd_ants _ _ _ _ _ _ _ _ H), (hd_ants _ _ _ _ _ _ _ _ Hh).
    rewrite (U1 (r / n)) by exact Hr. now rewrite X1.
  - intros b Hb Lb. destruct (U2 b Hb Lb) as (x & y & Y1 & Y2 & Y3 & Y4 & Y5 & Y6). exists x, y. repeat (split; [assumption|]).
    intros k row Hk. destruct (Y6 k row Hk) as (Z1 & Z2 & Z3). split; trivial. split; [|exact Z3]. rewrite X2 in Z2. exact Z2.
Qed.
End sessions.
