(** Reading and overwriting rows of an opened table in any order, all columns. *)
From Verif Require Import Base BaseLemmas Floats TimeBlockBuffer TbbSpec BitStream BytePacker File FileProofs StMan StManSpec HeaderProofs StManProofs.
From Verif Require Import StochasticEncoder TimeBlockEncoders TbeSpec Weights WeightSpec Block BlockSpec Column ColumnSpec ColumnProofs ColumnInv ColumnReach ColumnTerm ColumnData ColumnOrder ColumnWhole ColumnAmong ColumnRead
  StoredColumn StoredProofs System SystemSpec UpdateSpec RewriteSpec SessionSpec SystemLow SystemCols SystemInv SystemOrder SystemEnd SystemRead SystemTotal SystemGood SystemWrite SystemTerm SystemPuts SystemFinal SystemAll UpdateBlock ColumnRewrite SystemHeld SystemUpdate.
From Coq Require Import ZifyNat ZifyN Eqdep_dec.
Local Open Scope N_scope.
Local Arguments System.colenv : simpl never.

Section calls.
Context (cfg : nat -> coldef) (T : table) (nt : nat).
Lemma calls_other l i a j : j <> i -> calls_of cfg T nt (existT _ i a :: l) j = calls_of cfg T nt l j.
Proof. intros Nj. cbn [calls_of]. destruct (Nat.eq_dec i j); [congruence|reflexivity]. Qed.

Lemma calls_here l i a : calls_of cfg T nt (existT _ i a :: l) i = a :: calls_of cfg T nt l i.
Proof. cbn [calls_of]. destruct (Nat.eq_dec i i) as [Q|Q]; [|congruence]. rewrite (UIP_dec Nat.eq_dec Q eq_refl). reflexivity. Qed.
End calls.

Section rewrite.
Context (cfg : nat -> coldef) (T : table) (nt A : nat).
Hypotheses (NT : nt <> 0%nat) (HA : forall r, (fst (t_ants T r) < A)%nat /\ (snd (t_ants T r) < A)%nat) (A32 : N.of_nat A < 2 ^ 32).
Context (m0 : stman) (K : N) (L : nat -> f32) (n : N) (na : nat).
Hypotheses (New : new_table cfg m0) (Co : forall i, coldef_ok (cfg i) (L i)) (Zn : 0 < n) (N32 : n < 2 ^ 32) (Na32 : N.of_nat na < 2 ^ 32)
  (Tot : total n (N.of_nat na) (columns m0) < 2 ^ 32)
  (Af : forall i, (i < length (columns m0))%nat -> af_of (cfg i) = true -> forall r, (fst (t_ants T r) < na)%nat /\ (snd (t_ants T r) < na)%nat).
Notation sys := (sys cfg T nt).
Notation cst := (cst cfg T nt). Notation man := (man cfg T nt). Notation active := (active cfg T nt).
Notation ncol := (ncol cfg T nt). Notation running := (running cfg T nt). Notation colenv := (colenv cfg T nt).
Notation held := (held cfg T nt m0 K n na).
Notation calls_of := (calls_of cfg T nt). Notation put_ok := (put_ok cfg T nt).
Context (m : stman) (ok : N -> Prop).
Hypotheses (Hm : held m) (Okr : forall r, ok r -> r < K).
Notation nb := (nBlocksInFile m).
Notation dsk := (disk_of cfg T nt m).
Notation session := (sys_rewriting cfg T nt ok m).
Notation good i := (sound T nt (cfg i) n na).
Notation okv i := (row_ok (cfg i)).
Notation fine i := (fine (e := colenv i) n (row_ok (cfg i))).
Notation rwr := (fun j => rewriting (e := colenv j) (dsk j) nb n na ok (put_ok j)).

Lemma Zn' : n <> 0. Proof. clear - Zn. lia. Qed.

Lemma col_described i : (i < length (columns m))%nat -> (0 < nPol_of (cfg i))%nat /\ (0 < nChan_of (cfg i))%nat /\ (i < length (columns m0))%nat.
Proof.
  intros Hi. destruct (nth_error (columns m) i) as [col|] eqn:Hc; [|apply nth_error_None in Hc; lia].
  destruct (held_shape cfg T nt m0 K n na New Zn N32 Na32 Tot m Hm) as (_ & De & _ & Lc & _). destruct (De i col Hc) as (D1 & D2 & D3). repeat split; trivial. lia.
Qed.

Lemma rw_good i b y : dsk i b = Some y -> good i y.
Proof.
  unfold disk_of. destruct (nth_error (columns m) i) as [col|] eqn:Hc; [|easy]. intros Hd. assert (Hb : b < nb) by (unfold disk in Hd; destruct (N.ltb_spec b nb); [trivial|discriminate]).
  destruct (held_disk cfg T nt m0 K n na m i col b Hm Hc Hb) as (y' & D1 & _ & D2). assert (y' = y) by congruence. now subst.
Qed.

Lemma rw_okr i : (i < length (columns m))%nat -> forall r, ok r -> dsk i (r / n) <> None.
Proof.
  intros Hi r Hr. unfold disk_of. destruct (nth_error (columns m) i) as [col|] eqn:Hc; [|apply nth_error_None in Hc; lia].
  destruct (held_disk cfg T nt m0 K n na m i col (r / n) Hm Hc) as (y & -> & _); [|easy].
  apply (hd_blocks _ _ _ _ _ _ _ _ Hm). specialize (Okr r Hr). pose proof (N.mul_div_le r n ltac:(lia)). lia.
Qed.

Lemma rw_dec i b y : good i y -> fine i (dec (colenv i) n na b y).
Proof. intros H. exact (H b). Qed.

Lemma fine_rows i b x v : table_rows (e := colenv i) n b x v -> fine i v ->
  length x = N.to_nat n /\ (forall k row, nth_error x k = Some row -> (antenna1 row, antenna2 row) = t_ants T (b * n + N.of_nat k)) /\
  forall row, In row x -> length (visibilities row) = (nPol_of (cfg i) * nChan_of (cfg i))%nat /\ row_ok (cfg i) (visibilities row).
Proof.
  intros (L1 & L2) (F1 & F2). split; [congruence|]. split; [intros k row Hk; exact (proj1 (L2 k row Hk))|]. intros row Hin. apply In_nth_error in Hin as (k & Hk).
  destruct (L2 k row Hk) as (_ & Q). apply nth_error_In in Q. rewrite Forall_forall in F2. exact (F2 _ Q).
Qed.

Lemma rw_enc i b x v y : (i < length (columns m))%nat -> table_rows (e := colenv i) n b x v -> fine i v -> enc (colenv i) n na x y -> good i y.
Proof.
  intros Hi Tr Fv Ey. destruct (col_described i Hi) as (D2 & D3 & Hi0). destruct (fine_rows i b x v Tr Fv) as (Lx & Ax & Rx).
  exact (enc_sound T nt (cfg i) (L i) n na x y (Co i) D2 Ey Rx (Af i Hi0)).
Qed.

Lemma rw_put i d : put_ok i d -> (nSamp (colenv i) <= length d)%nat /\ okv i (firstn (nSamp (colenv i)) d).
Proof. intros (H1 & H2). split; [exact H1|now apply row_ok_firstn]. Qed.

Lemma rw_af i : (i < length (columns m))%nat -> Column.af (colenv i) = true -> forall r, (fst (ants (colenv i) r) < na)%nat /\ (snd (ants (colenv i) r) < na)%nat.
Proof. intros Hi. apply (Af i). now apply col_described. Qed.

Record RW (l : list (table_call cfg T nt)) (S : sys) : Prop := {
  rw_run : running S;
  rw_held : held (man S);
  rw_nb : nBlocksInFile (man S) = nb;
  rw_cols : columns (man S) = columns m;
  rw_col : forall j, (j < ncol S)%nat -> rwr j (calls_of l j) (cst S j) }.

Lemma rw_lt l S i : RW l S -> (i < ncol S)%nat -> (i < length (columns m))%nat.
Proof. intros U Hi. unfold System.ncol in Hi. now rewrite (rw_cols _ _ U) in Hi. Qed.

Lemma col_inv i lc s : (i < length (columns m))%nat -> rwr i lc s -> rinv (dsk i) nb n na ok (put_ok i) (good i) (okv i) lc s /\ inv (dsk i) s.
Proof.
  intros Hi H. pose proof (rinv_rewriting (dsk i) nb n na ok (put_ok i) (good i) (okv i) Zn' (hd_small _ _ _ _ _ _ _ _ Hm) (disk_within cfg T nt m i) (rw_okr i Hi) (rw_good i) (rw_dec i)
    (fun b x v y => rw_enc i b x v y Hi) (rw_put i) NT (rw_af i Hi) lc s H) as Ri. split; trivial.
  refine (inv_reach (e := colenv i) _ _ NT _ (rewriting_reach _ _ _ _ _ _ _ _ H) (r_run _ _ _ _ _ _ _ _ _ _ Ri)).
  apply (rewriting_S0 (dsk i) nb n na Zn'); [apply (hd_small _ _ _ _ _ _ _ _ Hm)|apply disk_within].
Qed.

Lemma rw_inv l S i : RW l S -> (i < ncol S)%nat -> rinv (dsk i) nb n na ok (put_ok i) (good i) (okv i) (calls_of l i) (cst S i) /\ inv (dsk i) (cst S i).
Proof. intros U Hi. apply col_inv; [eapply rw_lt; eauto|now apply (rw_col _ _ U)]. Qed.

Lemma write_held l S i k b x y col : RW l S -> nth_error (columns (man S)) i = Some col -> nth_error (workers (cst S i)) k = Some (WPicked b x) ->
  enc (colenv i) (rpb (cst S i)) (nant (cst S i)) x y -> held (writeCompressedData (man S) b col y) /\ b < nb.
Proof.
  intros U Hc Hw Ey. assert (Hi : (i < ncol S)%nat) by (unfold System.ncol; apply nth_error_Some; congruence). pose proof (rw_lt _ _ _ U Hi) as Hi'.
  destruct (rw_inv l S i U Hi) as (Ri & Iv). destruct (picked_block _ _ _ _ _ _ _ _ _ _ _ _ Iv Ri (nth_error_In _ _ Hw)) as (v & Tr & Fv & Lb).
  rewrite (r_rpb _ _ _ _ _ _ _ _ _ _ Ri), (r_nant _ _ _ _ _ _ _ _ _ _ Ri) in Ey. split; trivial.
  destruct (held_shape cfg T nt m0 K n na New Zn N32 Na32 Tot (man S) (rw_held _ _ U)) as (P & De & Ft & Lc & _); trivial.
  destruct (De i col Hc) as (D1 & D2 & D3). pose proof (hd_rows _ _ _ _ _ _ _ _ (rw_held _ _ U)) as Er. pose proof (hd_ants _ _ _ _ _ _ _ _ (rw_held _ _ U)) as Ea.
  apply (held_write cfg T nt m0 K n na New Zn N32 Na32 Tot (man S) i col b y); trivial.
  - apply (rw_held _ _ U).
  - now rewrite (rw_nb _ _ U).
  - rewrite (placed_size (man S) P ltac:(lia) i col Hc), Er, Ea, (size_agrees _ _ _ _ D1). unfold len. f_equal. exact (enc_length T nt (cfg i) (L i) n na x y (Co i) Ey).
  - eapply enc_fits. exact Ey.
  - exact (rw_enc i b x v y Hi' Tr Fv Ey).
Qed.

Lemma session_sreach l S : session l S -> sreach cfg T nt (sopen cfg T nt m) S.
Proof.
  induction 1; [constructor|eapply sreach_step; eauto..]; try (eapply ss_call; eauto; fail).
  - now apply ss_move.
  - now apply ss_wake.
Qed.

Let St0 : sstart cfg T nt (sopen cfg T nt m) := held_start cfg T nt m0 K n na New Zn N32 Na32 Tot m Hm.

Lemma rw_si l S : session l S -> running S -> held (man S) -> SI cfg T nt A (sopen cfg T nt m) S.
Proof. intros H R Hh. apply (si_reach cfg T nt A NT HA A32); trivial; [eapply session_sreach; eauto|now apply (held_fits cfg T nt m0 K n na New Zn N32 Na32 Tot)]. Qed.

Lemma rw_step1 l S i s' : RW l S -> (i < ncol S)%nat -> step (cst S i) s' -> code (cst S i) <> [] \/ code s' = [] -> status s' = Running.
Proof.
  intros U Hi Ss Nc. assert (H : rwr i (calls_of l i) s') by exact (rw_step _ _ _ _ _ _ _ _ _ (rw_col _ _ U i Hi) Ss Nc).
  exact (r_run _ _ _ _ _ _ _ _ _ _ (proj1 (col_inv i _ _ (rw_lt _ _ _ U Hi) H))).
Qed.

Lemma rw_moved l S S' : RW l S -> ncol S' = ncol S -> running S' -> held (man S') -> nBlocksInFile (man S') = nb -> columns (man S') = columns m ->
  (forall j, (j < ncol S)%nat -> moved cfg T nt S S' j) -> RW l S'.
Proof.
  intros U Nc R Hh Hn Hcs Mv. constructor; trivial. rewrite Nc. intros j Hj. destruct (rw_inv l S j U Hj) as (Ri & _). pose proof (rw_col _ _ U j Hj) as Hu.
  destruct (Mv j Hj) as [E|Ss Nd|n' m' c Ha Hc Cl Rz Cj Clj E].
  - rewrite E. exact Hu.
  - exact (rw_step _ _ _ _ _ _ _ _ _ Hu Ss Nd).
  - exfalso. rewrite (r_rpb _ _ _ _ _ _ _ _ _ _ Ri) in Rz. now apply Zn'.
Qed.

Lemma rw_load l S i col b c old : RW l S -> nth_error (columns (man S)) i = Some col -> len old = co_blockSize col -> Forall (fun v => v < 2 ^ 8) old ->
  status (sys_load cfg T nt (man S) i col old (set_code (cst S i) c) b) = Running.
Proof.
  intros U Hc Lo Fo. assert (Hi : (i < ncol S)%nat) by (unfold System.ncol; apply nth_error_Some; congruence).
  destruct (rw_inv l S i U Hi) as ([R Er En Nk Mg _] & _).
  destruct (held_shape cfg T nt m0 K n na New Zn N32 Na32 Tot (man S) (rw_held _ _ U)) as (P & De & Ft & Lc & _); trivial.
  pose proof (hd_rows _ _ _ _ _ _ _ _ (rw_held _ _ U)) as Em. pose proof (hd_ants _ _ _ _ _ _ _ _ (rw_held _ _ U)) as Ea.
  destruct (De i col Hc) as (D1 & D2 & D3). assert (Hi0 : (i < length (columns m0))%nat) by (rewrite <- Lc; exact Hi).
  unfold sys_load. cbv zeta. set (s1 := if cached _ _ then _ else _).
  assert (Q : rpb s1 = n /\ nant s1 = na /\ status s1 = Running) by (unfold s1; destruct (cached _ b); cbn; auto).
  destruct Q as (Q1 & Q2 & Q3). clearbody s1. destruct (N.ltb_spec b (nBlocksInFile (man S))) as [Hb|Hb]; [|exact Q3].
  destruct (hd_data _ _ _ _ _ _ _ _ (rw_held _ _ U) i col b Hc Hb) as (y & Ey & _). rewrite Ey.
  destruct (load_total (cfg i) (L i) (N.to_nat (rpb s1)) (nant s1) (block_ants T (rpb s1) b) y
      (repeat 0 (nSymbols (codec_of (cfg i)) (N.to_nat (rpb s1)))) (Co i)) as (rows & ->); [| | | |exact Q3].
  + eapply read8; [|exact Ey]. apply (hd_bytes _ _ _ _ _ _ _ _ (rw_held _ _ U)).
  + destruct (read_ok (man S) P Ft ltac:(lia) b i col Hc Hb (hd_begun _ _ _ _ _ _ _ _ (rw_held _ _ U))) as (r & Err & Lr). rewrite Ey in Err. injection Err as <-. specialize (Lr y eq_refl).
    rewrite (placed_size _ P ltac:(lia) i col Hc), Em, Ea, (size_agrees _ _ _ _ D1) in Lr. rewrite Q1, Q2. apply Nat2N.inj. exact Lr.
  + apply repeat_length.
  + intros Ha r0 _. rewrite Q2. now apply (Af i).
Qed.

Lemma rw_code l S i k q c : RW l S -> (i < ncol S)%nat -> code (cst S i) = ISetRpb k q :: c -> False.
Proof.
  intros U Hi Hc. pose proof (rw_lt _ _ _ U Hi) as Hi'.
  apply (rewrite_codes (dsk i) nb n na ok (put_ok i) (good i) (okv i) Zn' (hd_small _ _ _ _ _ _ _ _ Hm) (disk_within cfg T nt m i) (rw_okr i Hi') (rw_good i) (rw_dec i)
    (fun b x v y => rw_enc i b x v y Hi') (rw_put i) NT (rw_af i Hi') _ _ _ _ (rw_col _ _ U i Hi) Hc k q eq_refl).
Qed.

Lemma rw_call l l' S S' i (a : call (colenv i)) : RW l S -> scall cfg T nt S S' i a -> (forall j, j <> i -> calls_of l' j = calls_of l j) ->
  (rwr i (calls_of l i) (cst S i) -> rwr i (calls_of l' i) (set_code (cst S i) (call_code a))) -> RW l' S'.
Proof.
  intros U (Hi & R & C0 & Ci & _ & _ & E & Em & Ea & Eo) Ho Hs. assert (Nc : ncol S' = ncol S) by (unfold System.ncol; now rewrite Em). constructor; try rewrite Em; try apply U.
  - unfold System.running. rewrite Nc. intros j Hj. destruct (Nat.eq_dec j i) as [->|Nj]; [rewrite E; now apply R|rewrite (Eo j Nj); now apply R].
  - rewrite Nc. intros j Hj. pose proof (rw_col _ _ U j Hj) as Hu. destruct (Nat.eq_dec j i) as [Q|Nj].
    + subst j. rewrite E. now apply Hs.
    + rewrite (Ho j Nj), (Eo j Nj). exact Hu.
Qed.

Theorem rw_session l S : session l S -> RW l S.
Proof.
  induction 1 as [|l S S' i row d Hs IH Ok Mp Pd Sc|l S S' i row Hs IH Ok Sc|l S S' i Hs IH Sc|l S S' Hs IH Mv|l S S' Hs IH Wk].
  - constructor; trivial; [now intros j _|]. intros j _.
    pose proof (rw_open (e := colenv j) (dsk j) nb n na ok (put_ok j)) as Q. cbn [System.cst sopen]. rewrite (hd_rows _ _ _ _ _ _ _ _ Hm), (hd_ants _ _ _ _ _ _ _ _ Hm), Nat2N.id. exact Q.
  - rewrite (hd_rows _ _ _ _ _ _ _ _ Hm) in Mp. pose proof Sc as (Hi & R & C0 & Ci & Uc & _).
    apply (rw_call l _ S S' i (Put row d)); trivial; [intros; now apply calls_other|]. intros Hu. rewrite calls_here. exact (RewriteSpec.rw_put _ _ _ _ _ _ _ _ row d Hu (R i Hi) (C0 i Hi) Ci Uc Ok Mp Pd).
  - pose proof Sc as (Hi & R & C0 & Ci & Uc & _).
    apply (rw_call l _ S S' i (Get row)); trivial; [intros; now apply calls_other|]. intros Hu. rewrite calls_here. exact (rw_get _ _ _ _ _ _ _ _ row Hu (R i Hi) (C0 i Hi) Ci Uc Ok).
  - pose proof Sc as (Hi & R & C0 & Ci & Uc & _). apply (rw_call l _ S S' i Shutdown); trivial. intros Hu. exact (rw_close _ _ _ _ _ _ _ _ Hu (R i Hi) (C0 i Hi) Ci).
  - pose proof (move_columns cfg T nt S S' Mv) as Nc.
    assert (X : running S' /\ held (man S') /\ nBlocksInFile (man S') = nb /\ columns (man S') = columns m).
    { destruct Mv as [i x c Hi R Hc Mw P Oi E Em On|i b c col old Hn R Hc Mw Oi Lo Fo E Em On|i n' m' c Hi R Hc Mw Ha Oi Ei E Ea Eo|
        i n' m' c Hi R Hc Mw Ha Oi Ei E Em On|i n' m' c Hi R Hc Mw Ha E Em On|i k w y s' w' col Hn R Hw Ey E Es Em Ea Eo].
      - rewrite Em. split; [|split; [apply IH|split; apply IH]]. unfold System.running. rewrite Nc. intros j Hj. destruct (Nat.eq_dec j i) as [->|Nj]; [|rewrite (proj2 On j Nj); now apply IH].
        apply (rw_step1 l S i); trivial; [|left; congruence]. apply step_int. apply step_main with (junk := None) (i := x) (c := c); trivial; [now apply R|exact Logic.I].
      - rewrite Em. split; [|split; [apply IH|split; apply IH]]. unfold System.running. rewrite Nc. intros j Hj. destruct (Nat.eq_dec j i) as [->|Nj]; [|rewrite (proj2 On j Nj); now apply IH].
        rewrite E. now apply (rw_load l).
      - exfalso. eapply rw_code; eauto.
      - exfalso. eapply rw_code; eauto.
      - exfalso. eapply rw_code; eauto.
      - assert (Hi : (i < ncol S)%nat) by (apply nth_error_Some; congruence). split.
        + unfold System.running. rewrite Nc. intros j Hj. destruct (Nat.eq_dec j i) as [->|Nj]; [|rewrite (Eo j Nj); now apply IH].
          rewrite Es. apply (rw_step1 l S i); trivial.
          * apply step_int. apply step_worker with (w := w) (y := y); trivial. now apply R.
          * apply code_dec. now apply (wexec_closing _ _ _ _ _ k E).
        + rewrite Em. destruct w as [| | |b x|b|]; try (split; [apply IH|split; apply IH]). destruct (encodable _ _ _ _) eqn:En; [|split; [apply IH|split; apply IH]].
          destruct (write_held l S i k b x y col IH Hn Hw (Ey b x eq_refl En)) as (Q1 & Q2). destruct (write_settings (man S) b col y) as (_ & _ & _ & _ & -> & ->).
          split; trivial. rewrite (rw_nb _ _ IH). split; [clear - Q2; lia|apply IH]. }
    destruct X as (R' & Hh & Hn & Hcs). apply (rw_moved l S); trivial.
    apply (moves cfg T nt A NT HA A32 (sopen cfg T nt m) S S'); trivial.
    + apply (rw_si l S); trivial; apply IH.
    + apply (rw_si l S'); trivial. eapply sw_move; eauto.
  - assert (Em : man S' = man S) by (destruct Wk; trivial). pose proof (wakes cfg T nt S S' Wk) as Mv. assert (Nc : ncol S' = ncol S) by (unfold System.ncol; now rewrite Em).
    apply (rw_moved l S); trivial; try rewrite Em; try apply IH. unfold System.running. rewrite Nc. intros j Hj. destruct (Mv j Hj) as [E|Ss Nd|n' m' c Ha Hc Cl Rz Cj Clj E].
    + rewrite E. now apply IH.
    + now apply (rw_step1 l S j).
    + rewrite E. now apply IH.
Qed.

(** ** Results *)
(** the rows read are those of columns without threads *)
Theorem rw_answers l S i : session l S -> idle S -> (i < length (columns m))%nat ->
  exists c, runs (e := colenv i) n na (dsk i) (calls_of l i) c /\ given c = outs (cst S i).
Proof.
  intros Hs Id Hi'. pose proof (rw_session _ _ Hs) as U. assert (Hi : (i < ncol S)%nat) by (unfold System.ncol; now rewrite (rw_cols _ _ U)).
  exact (rewrite_answers (dsk i) nb n na ok (put_ok i) (good i) (okv i) Zn' (hd_small _ _ _ _ _ _ _ _ Hm) (disk_within cfg T nt m i) (rw_okr i Hi') (rw_good i) (rw_dec i)
    (fun b x v y => rw_enc i b x v y Hi') (rw_put i) NT (rw_af i Hi') _ _ (rw_col _ _ U i Hi) (Id i Hi)).
Qed.

(** the calls come to an end *)
Theorem rw_finishes l S : session l S -> sfinishes S.
Proof.
  intros H. assert (P : session l S) by exact H. revert S P H. intros S _.
  apply (sys_finishes cfg T nt A NT (sopen cfg T nt m) (session l)); trivial.
  - intros S1 H1. pose proof (rw_session _ _ H1) as U. apply (rw_si l S1); trivial; apply U.
  - intros S1 H1. apply (rw_session _ _ H1).
  - intros S1 S2 H1 Mv. eapply sw_move; eauto.
  - intros S1 i H1 Hi b x Hw Ex. pose proof (rw_session _ _ H1) as U. destruct (rw_inv l S1 i U Hi) as (Ri & Iv).
    destruct (picked_block _ _ _ _ _ _ _ _ _ _ _ _ Iv Ri Hw) as (v & Tr & Fv & Lb). destruct (fine_rows i b x v Tr Fv) as (Lx & Ax & Rx).
    destruct (col_described i (rw_lt _ _ _ U Hi)) as (D2 & D3 & _).
    apply (col_encodes (cfg i) (L i) T nt); trivial.
    + intros Q. rewrite Q in Lx. cbn in Lx. clear - Lx Zn. lia.
    + clear - Rx. revert x Rx. unfold System.colenv. destruct (cfg i) as [| | |p ch bi]; trivial. intros x Rx. apply Forall_forall. intros v Hv. apply in_map_iff in Hv as (rw & <- & Hin). now destruct (Rx rw Hin).
  - intros S1 i k q c H1 Hi _ Hc. exact (False_ind _ (rw_code l S1 i k q c (rw_session _ _ H1) Hi Hc)).
Qed.

(** rows that are encoded are decoded as closely as [kept] says *)
Lemma codes_kept i b v y : (i < length (columns m))%nat -> fine i v -> codes (e := colenv i) n na b v y ->
  exists x, table_rows (e := colenv i) n b x v /\ enc (colenv i) n na x y /\ forall k row, nth_error x k = Some row ->
    exists out, nth_error (dec (colenv i) n na b y) k = Some out /\ kept (cfg i) (L i) na x (floats (nMetaFloats (codec_of (cfg i)) (N.to_nat n) na) y) row out.
Proof.
  intros Hi Fv (x & Tr & Ey). exists x. split; trivial. split; trivial. destruct (fine_rows i b x v Tr Fv) as (Lx & Ax & Rx). destruct (col_described i Hi) as (D2 & D3 & Hi0). intros k row Hk.
  exact (block_kept T nt (cfg i) (L i) n na b x y (Co i) D2 D3 Zn' ltac:(clear - N32; lia) Lx Ax Rx (Af i Hi0) Ey k row Hk).
Qed.

(** what the file holds in the end *)
Theorem rw_closed l S : session l S -> all_closed S -> held (man S) /\ columns (man S) = columns m /\ nBlocksInFile (man S) = nb /\
  forall i, (i < length (columns m))%nat -> exists c, runs (e := colenv i) n na (dsk i) (calls_of l i) c /\ given c = outs (cst S i) /\
    (forall b, agrees n na b (put_away c b) (held_block cfg T nt (man S) i b)) /\ (forall b v, put_away c b = Some (Coded v) -> fine i v) /\
    forall b, never_put n (calls_of l i) b -> held_block cfg T nt (man S) i b = dsk i b.
Proof.
  intros Hs Cl. pose proof (rw_session _ _ Hs) as U. split; [apply U|]. split; [apply U|]. split; [apply U|]. intros i Hi'.
  pose proof (rw_si l S Hs (rw_run _ _ U) (rw_held _ _ U)) as Is.
  assert (Hi : (i < ncol S)%nat) by (unfold System.ncol; now rewrite (rw_cols _ _ U)).
  destruct (nth_error (columns m) i) as [col|] eqn:Hc; [|apply nth_error_None in Hc; lia].
  assert (Hc' : nth_error (columns (man S)) i = Some col) by now rewrite (rw_cols _ _ U).
  destruct (Cl i Hi) as (C1 & C2).
  destruct (rewrite_closed (dsk i) nb n na ok (put_ok i) (good i) (okv i) Zn' (hd_small _ _ _ _ _ _ _ _ Hm) (disk_within cfg T nt m i) (rw_okr i Hi') (rw_good i) (rw_dec i)
    (fun b x v y => rw_enc i b x v y Hi') (rw_put i) NT (rw_af i Hi') _ _ (rw_col _ _ U i Hi) C1 C2) as (c & Rn & Gv & Ag).
  assert (Fd : forall b y, file (cst S i) b = Some y -> held_block cfg T nt (man S) i b = Some y).
  { intros b y Hf. destruct (s_file _ _ _ _ _ _ Is i col b y Hc' Hf) as (L1 & L2 & L3). unfold held_block. rewrite Hc'. unfold disk. now rewrite (proj2 (N.ltb_lt _ _) L1), L3. }
  assert (Ag' : forall b, agrees n na b (put_away c b) (held_block cfg T nt (man S) i b)).
  { intros b. destruct (Ag b) as (Ab & _). unfold agrees in *. destruct (put_away c b) as [[y|v]|] eqn:Ep.
    - now apply Fd.
    - destruct Ab as (y & Y1 & Y2). exists y. split; trivial. now apply Fd.
    - apply put_away_none in Ep. unfold held_block. rewrite Hc'. unfold disk. rewrite (rw_nb _ _ U). destruct (N.ltb_spec b nb) as [Lb|_]; [|reflexivity].
      exfalso. revert Ep. apply (runs_none (dsk i) n na (calls_of l i)); trivial. unfold disk_of. rewrite Hc. destruct (held_disk cfg T nt m0 K n na m i col b Hm Hc Lb) as (y & -> & _). discriminate. }
  exists c. split; trivial. split; trivial. split; trivial. split; [intros b; apply Ag|].
  intros b Nv. specialize (Ag' b). rewrite (runs_kept (dsk i) n na _ _ b Rn Nv) in Ag'. destruct (dsk i b); exact Ag'.
Qed.

Lemma calls_ok l S : session l S -> forall i r d, In (CPut r d) (calls_of l i) -> put_ok i d.
Proof.
  induction 1 as [|l S S' i row d Hs IH Ok Mp Pd Sc|l S S' i row Hs IH Ok Sc| | |]; trivial.
  - intros i r d [].
  - intros j r d' Hin. destruct (Nat.eq_dec j i) as [->|Nj]; [|rewrite calls_other in Hin by trivial; eauto]. rewrite calls_here in Hin. destruct Hin as [Q|Q]; [|eauto]. now injection Q as <- <-.
  - intros j r d' Hin. destruct (Nat.eq_dec j i) as [->|Nj]; [|rewrite calls_other in Hin by trivial; eauto]. rewrite calls_here in Hin. destruct Hin as [Q|Q]; [discriminate|eauto].
Qed.

(** a row is put, and read later; other rows of its block are not put in between *)
Theorem rw_put_read l S i r d l0 mid : session l S -> idle S -> (i < length (columns m))%nat -> calls_of l i = CGet r :: mid ++ CPut r d :: l0 -> never_put n mid (r / n) ->
  exists out rest, outs (cst S i) = (r, AVals out) :: rest /\ (out = firstn (nSamp (colenv i)) d \/
    exists v x y row, length v = N.to_nat n /\ table_rows (e := colenv i) n (r / n) x v /\ enc (colenv i) n na x y /\ nth_error x (N.to_nat (r mod n)) = Some row /\ visibilities row = firstn (nSamp (colenv i)) d /\
      kept (cfg i) (L i) na x (floats (nMetaFloats (codec_of (cfg i)) (N.to_nat n) na) y) row out).
Proof.
  intros Hs Id Hi El Nv. destruct (rw_answers l S i Hs Id Hi) as (c & Rn & <-). rewrite El in Rn.
  destruct (put_then_read (dsk i) nb n na (put_ok i) (good i) (okv i) Zn' (hd_small _ _ _ _ _ _ _ _ Hm) (rw_good i) (rw_dec i) (fun b x v y => rw_enc i b x v y Hi) (rw_put i) NT l0 mid r d c Rn)
    as (out & rest & Eo & Ho); trivial.
  { intros r' d' Hin. apply (calls_ok l S Hs i r' d'). rewrite El. now right. }
  exists out, rest. split; trivial. destruct Ho as [Ho|(v & y & Fv & Cy & Hv & Hd)]; [now left|right].
  destruct (codes_kept i (r / n) v y Hi Fv Cy) as (x & Tr & Ey & Kp). pose proof Tr as (Lx & Hx). pose proof Fv as (Lv & _).
  destruct (nth_error x (N.to_nat (r mod n))) as [row|] eqn:Er; [|apply nth_error_None in Er; assert (N.to_nat (r mod n) < length v)%nat by (apply nth_error_Some; congruence); clear - Er H Lx; lia].
  exists v, x, y, row. split; trivial. split; trivial. split; trivial. split; trivial. destruct (Hx _ _ Er) as (_ & Q). split; [congruence|].
  destruct (Kp _ _ Er) as (out' & O1 & O2). assert (out' = out) by congruence. now subst out'.
Qed.

(** a row of a block in which nothing was put *)
Theorem rw_unchanged l S i r l0 : session l S -> idle S -> (i < length (columns m))%nat -> calls_of l i = CGet r :: l0 -> never_put n l0 (r / n) ->
  exists out rest, outs (cst S i) = (r, AVals out) :: rest /\ held_row cfg T nt m i r = Some out.
Proof.
  intros Hs Id Hi El Nv. destruct (rw_answers l S i Hs Id Hi) as (c & Rn & <-). rewrite El in Rn.
  destruct (read_unchanged (dsk i) n na l0 r c Rn Nv) as (y & out & rest & Ey & Hd & Eo). exists out, rest. split; trivial.
  unfold held_row, stored_row. rewrite (hd_rows _ _ _ _ _ _ _ _ Hm), (hd_ants _ _ _ _ _ _ _ _ Hm), Nat2N.id. change (held_block cfg T nt m i) with (dsk i). now rewrite Ey.
Qed.
End rewrite.
