(** Example runs for C71: the table of [SystemTraces] read in the session in which its rows
    were put. *)
From Coq Require Import Reals ZArith.
From Verif Require Import Base BaseLemmas Floats TimeBlockBuffer BytePacker File StMan StManSpec.
From Verif Require Import BitStream StochasticEncoder TimeBlockEncoders TbeSpec TbeExamples Weights WeightSpec Block BlockSpec Column ColumnSpec ColumnTraces ColumnSession StoredColumn StoredTraces System SystemSpec SystemTraces UpdateSpec SessionSpec UpdateTraces.
Local Open Scope N_scope.

(** all rows put, nothing closed, the threads at rest *)
Definition sputs : list yact := yfew 0 1 ++ yfew 1 0 ++ yfew 0 1 ++ yfew 0 0 ++ yfew 1 1 ++ [YPut 0; YMoves 40; YPut 1; YMoves 40].
Definition swrote := ywritten ycfg exT 2 yg yv yD 6 yman sputs.
Definition sput : sys ycfg exT 2 := snd swrote.
(** row 5 when its block is not in the file; rows of the other block; row 5 again *)
Definition sgets : list yact := [YGet 0 5; YMoves 40; YGet 0 1; YMoves 40; YGet 0 5; YMoves 40; YGet 1 2; YMoves 40; YGet 1 4; YMoves 40].
Definition smid : sys ycfg exT 2 := yread ycfg exT 2 yg yv (fun r => r <? 6) sgets sput.
Definition sclose : list yact := [YShut 0; YMoves 40; YShut 1; YMoves 40].
Definition sdone : sys ycfg exT 2 := yread ycfg exT 2 yg yv (fun r => r <? 6) sclose smid.
Definition souts := (map (show1 show2) (outs (cst ycfg exT 2 smid 0)), map (show1 show) (outs (cst ycfg exT 2 smid 1))).
Definition idleb2 (S : sys ycfg exT 2) := all_cols ycfg exT 2 S (fun i => isnil (code (cst ycfg exT 2 S i))).
Definition openb (ks : nat -> N) (S : sys ycfg exT 2) := all_cols ycfg exT 2 S (fun i => (ks i =? 6) && negb (closed (cst ycfg exT 2 S i))).
Lemma idleb2_ok S : idleb2 S = true -> idle S.
Proof. intros H j Hj. apply isnil_eq. exact (all_cols_ok ycfg exT 2 yg yv yD 6 S _ H j Hj). Qed.
Lemma openb_ok ks S : openb ks S = true -> forall j, (j < ncol ycfg exT 2 S)%nat -> ks j = 6 /\ closed (cst ycfg exT 2 S j) = false.
Proof. intros H j Hj. pose proof (all_cols_ok ycfg exT 2 yg yv yD 6 S _ H j Hj) as X. cbn beta in X. apply andb_true_iff in X as (X & Y). split; [now apply N.eqb_eq|now apply negb_true_iff]. Qed.
Lemma below6 S0 S : sys_reading (cfg := ycfg) (T := exT) (nt := 2) (fun r => (r <? 6) = true) S0 S -> sys_reading (fun r => r < 6) S0 S.
Proof. induction 1 as [|S S' i r H IH Hr Hc|S S' i H IH Hc|S S' H IH Hm|S S' H IH Hm]; [constructor|eapply sr_get; eauto; now apply N.ltb_lt|eapply sr_close; eauto|eapply sr_move; eauto|eapply sr_wake; eauto]. Qed.
Lemma reading_app ok S0 S1 S2 : sys_reading (cfg := ycfg) (T := exT) (nt := 2) ok S0 S1 -> sys_reading ok S1 S2 -> sys_reading ok S0 S2.
Proof. intros H. induction 1 as [|S S' i r H' IH Hr Hc|S S' i H' IH Hc|S S' H' IH Hm|S S' H' IH Hm]; [trivial|eapply sr_get; eauto|eapply sr_close; eauto|eapply sr_move; eauto|eapply sr_wake; eauto]. Qed.

Lemma sput_order : sys_order ycfg exT 2 yman yD 6 (fst swrote) sput.
Proof. exact (ywritten_order ycfg exT 2 yg yv yD 6 yman sputs). Qed.
Lemma sput_idle : idle sput.
Proof. apply idleb2_ok. vm_compute. reflexivity. Qed.
Lemma sput_open : forall j, (j < ncol ycfg exT 2 sput)%nat -> fst swrote j = 6 /\ closed (cst ycfg exT 2 sput j) = false.
Proof. apply openb_ok. vm_compute. reflexivity. Qed.
Lemma smid_reading : sys_reading (fun r => r < 6) sput smid.
Proof. exact (below6 _ _ (yread_reading ycfg exT 2 yg yv yD 6 (fun r => r <? 6) sgets sput)). Qed.
Lemma smid_idle : idle smid.
Proof. apply idleb2_ok. vm_compute. reflexivity. Qed.
Lemma sdone_reading : sys_reading (fun r => r < 6) sput sdone.
Proof. exact (reading_app _ _ _ _ smid_reading (below6 _ _ (yread_reading ycfg exT 2 yg yv yD 6 (fun r => r <? 6) sclose smid))). Qed.
Lemma sdone_closed : all_closed sdone.
Proof. apply (closedb_ok ycfg exT 2 yg yv yD 6). vm_compute. reflexivity. Qed.
Lemma sdone_stored : stored_table ycfg exT 2 yman yD 6 (man ycfg exT 2 sdone).
Proof. exact (sd_same ycfg exT 2 yman yD 6 (fst swrote) sput sdone sput_order sput_idle sput_open sdone_reading sdone_closed). Qed.
Lemma sdone_reopens : reopens (man ycfg exT 2 sdone) (again (fil (man ycfg exT 2 sdone))).
Proof. apply again_reopens. vm_compute. reflexivity. Qed.

(** the rows in order, as a copy of the table reads them; the encoding threads are slow *)
Definition tputs : list yact := yfew 0 1 ++ yfew 1 0 ++ yfew 0 1 ++ yfew 0 1 ++ [YPut 0; YMoves 11; YPut 1; YMoves 5; YPut 0; YMoves 3; YPut 1; YMoves 3].
Definition twrote := ywritten ycfg exT 2 yg yv yD 6 yman tputs.
Definition tput : sys ycfg exT 2 := snd twrote.
Definition tgets : list yact := flat_map (fun r => [YGet 0 r; YMoves 1; YGet 1 r; YMoves 1]) [0; 1; 2; 3; 4; 5].
Definition tmid : sys ycfg exT 2 := yread ycfg exT 2 yg yv (fun r => r <? 6) tgets tput.
Lemma tput_order : sys_order ycfg exT 2 yman yD 6 (fst twrote) tput.
Proof. exact (ywritten_order ycfg exT 2 yg yv yD 6 yman tputs). Qed.
Lemma tput_idle : idle tput.
Proof. apply idleb2_ok. vm_compute. reflexivity. Qed.
Lemma tput_open : forall j, (j < ncol ycfg exT 2 tput)%nat -> fst twrote j = 6 /\ closed (cst ycfg exT 2 tput j) = false.
Proof. apply openb_ok. vm_compute. reflexivity. Qed.
Lemma tmid_reading : sys_reading (fun r => r < 6) tput tmid.
Proof. exact (below6 _ _ (yread_reading ycfg exT 2 yg yv yD 6 (fun r => r <? 6) tgets tput)). Qed.
Lemma tmid_idle : idle tmid.
Proof. apply idleb2_ok. vm_compute. reflexivity. Qed.
Lemma tmid_outs i : (i < ncol ycfg exT 2 tmid)%nat -> outs (cst ycfg exT 2 tmid i) = [(5, AZero); (4, AZero); (3, AZero); (2, AZero); (1, AZero); (0, AZero)].
Proof. destruct i as [|[|i]]; [intros _; vm_compute; reflexivity..|]. intros H. exfalso. revert H. replace (ncol ycfg exT 2 tmid) with 2%nat by (vm_compute; reflexivity). lia. Qed.
Lemma tweights : map show (yD 1%nat 0) = [Num 1024; Num 1536; Num 0; Num 4608].
Proof. vm_compute. reflexivity. Qed.

(** C71: one time block *)
Lemma single_block_reads {e} (D : N -> list (data e)) : (nthreads e <> 0)%nat -> (forall r, (nSamp e <= length (D r))%nat) -> forall k, k < 2 ^ 32 ->
  (forall r, r < k -> same_keys e r 0) ->
  (exists s0, in_order False D k s0 /\ status s0 = Running /\ code s0 = [] /\ closed s0 = false) /\
  forall s0 ok s, in_order False D k s0 -> status s0 = Running -> code s0 = [] -> closed s0 = false -> reading ok s0 s -> closed s = false ->
    status s = Running /\ exists l, outs s = l ++ outs s0 /\ Forall (fun a => snd a = AZero) l.
Proof.
  intros NT HD k Lk Sk. split.
  - destruct (single_block_run D NT HD k Lk Sk) as (s & H1 & H2 & H3 & H4 & _). now exists s.
  - intros s0 ok s H R C Cl Rd Cl2. exact (single_block_zeros D HD k s0 ok s NT H Sk R C Cl Rd Cl2).
Qed.

(** C71: the rows of the last block, before any other row is read *)
Definition lastb (r : N) : bool := (r <? 6) && (r / 4 =? 1).
Definition slast : sys ycfg exT 2 := yread ycfg exT 2 yg yv lastb [YGet 0 5; YMoves 40; YGet 1 4; YMoves 40; YGet 0 4; YMoves 40] sput.
Lemma slast_reading : sys_reading (fun r => r < 6 /\ r / 4 = (6 - 1) / 4) sput slast.
Proof.
  assert (X : forall S0 S, sys_reading (cfg := ycfg) (T := exT) (nt := 2) (fun r => lastb r = true) S0 S -> sys_reading (fun r => r < 6 /\ r / 4 = (6 - 1) / 4) S0 S).
  { intros S0 S. induction 1 as [|S S' i r H IH Hr Hc|S S' i H IH Hc|S S' H IH Hm|S S' H IH Hm]; [constructor| |eapply sr_close; eauto|eapply sr_move; eauto|eapply sr_wake; eauto].
    refine (sr_get _ _ _ _ i r IH _ Hc). unfold lastb in Hr. apply andb_true_iff in Hr as (H1 & H2). split; [now apply N.ltb_lt|now apply N.eqb_eq]. }
  apply X. exact (yread_reading ycfg exT 2 yg yv yD 6 lastb _ sput).
Qed.
Definition slast_open : bool := openb (fst swrote) slast.
