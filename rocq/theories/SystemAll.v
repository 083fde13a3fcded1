(** Tables that can be written: nothing fails, the calls terminate, the rows are read back. *)
From Verif Require Import Base BaseLemmas Floats TimeBlockBuffer TbbSpec TbbProofs BitStream BytePacker File FileProofs StMan StManSpec StManProofs.
From Verif Require Import StochasticEncoder TimeBlockEncoders TbeSpec Weights WeightSpec Block BlockSpec BlockProofs Column ColumnSpec ColumnProofs ColumnInv ColumnReach ColumnTerm ColumnData ColumnOrder ColumnWhole ColumnAmong ColumnRead
  StoredColumn StoredProofs System SystemSpec SystemLow SystemCols SystemInv SystemOrder SystemEnd SystemRead SystemGood SystemFinal SystemWrite SystemTerm SystemPuts.
From Coq Require Import ZifyNat ZifyN.
Local Open Scope N_scope.
Local Arguments System.colenv : simpl never.

(** ** The answer of a call *)
Section answer.
Context {e : env}.
Definition asks (row : N) (x : instr (data e)) : Prop := x = IGet row \/ x = IGetRow row \/ x = IRead row.
Definition before (x : instr (data e)) : Prop := match x with IWaitNot _ | ILoad _ | IStore => True | _ => False end.
Definition answering (row : N) (o : list (N * answer (data e))) (s : state e) : Prop :=
  (outs s = o /\ exists l x, code s = l ++ [x] /\ Forall before l /\ asks row x) \/ (code s = [] /\ exists a, outs s = (row, a) :: o).

Lemma answering_ext row o (s s' : state e) : answering row o s -> code s' = code s -> outs s' = outs s -> answering row o s'.
Proof. intros H E1 E2. unfold answering. now rewrite E1, E2. Qed.

Lemma load_same junk (s : state e) b : code (load junk s b) = code s /\ outs (load junk s b) = outs s.
Proof.
  unfold load. destruct (cached _ _); destruct (_ <? _); cbn; repeat match goal with |- context [match ?u with _ => _ end] => destruct u end; now split.
Qed.

Lemma answering_main row o (s s' : state e) junk i c : answering row o s -> code s = i :: c -> exec junk s i c = Some s' -> status s' = Running -> answering row o s'.
Proof.
  intros [(Ho & l & x & Hc & Fl & Ax)|(C0 & _)] Hi E R; [|congruence]. rewrite Hc in Hi. destruct l as [|z l]; cbn [app] in Hi; injection Hi as -> <-.
  - destruct Ax as [->|[->| ->]]; cbn [exec] in E.
    + destruct (_ =? _); [injection E as <-; right; split; [reflexivity|exists AZero; cbn; now rewrite Ho]|]. destruct (_ <=? _); injection E as <-; [right; split; [reflexivity|exists AZero; cbn; now rewrite Ho]|].
      left. split; [exact Ho|]. exists [IWaitNot (row / rpb s)], (IGetRow row). repeat split; [|right; now left]. repeat constructor.
    + left. destruct (_ =? _); [|destruct (changed s)]; injection E as <-; (split; [exact Ho|]).
      * exists [], (IRead row). repeat split; [constructor|right; now right].
      * exists [IStore; ILoad (row / rpb s)], (IRead row). repeat split; [repeat constructor|right; now right].
      * exists [ILoad (row / rpb s)], (IRead row). repeat split; [repeat constructor|right; now right].
    + destruct (GetData _ _) as [v| |]; injection E as <-; try discriminate. right. split; [reflexivity|]. exists (AVals v). cbn. now rewrite Ho.
  - inversion Fl as [|? ? Bz Fl']; subst. left. destruct i; try contradiction; cbn [exec] in E.
    + injection E as <-. destruct (load_same junk (set_code s (l ++ [x])) b) as (-> & ->). split; [reflexivity|]. now exists l, x.
    + destruct (_ || _); injection E as <-; (split; [reflexivity|]); [exists (IStore :: l), x|exists l, x]; now repeat split.
    + destruct (cached _ _); injection E as <-; (split; [reflexivity|]); [exists (IWaitNot b :: l), x|exists l, x]; now repeat split.
Qed.

Lemma answering_step row o (s s' : state e) : answering row o s -> step s s' -> code s <> [] \/ code s' = [] -> status s' = Running -> answering row o s'.
Proof.
  intros H St Nc R. inversion St as [? Si|a R0 C0 C1 A|j Hj|Hj|j H1 H2 H3]; subst; try (now apply (answering_ext row o s)).
  - inversion Si as [junk i c ? _ Hc Mw E J|j w y s1 w1 _ Hw Hy E]; subst; [eapply answering_main; eauto|].
    apply (answering_ext row o s); trivial; (destruct w as [| | |b x|b|]; cbn [wexec] in E; unfold pick in E;
      repeat match type of E with
      | (if ?b then _ else _) = Some _ => destruct b
      | match match ?b with _ => _ end with _ => _ end = Some _ => destruct b
      | match ?b with _ => _ end = Some _ => destruct b
      end; try discriminate; injection E as <- <-; reflexivity).
  - destruct Nc as [Nc|Nc]; [congruence|]. cbn in Nc. destruct a; discriminate.
Qed.
End answer.

(** a read that ended has one answer *)
Section answered.
Context (cfg : nat -> coldef) (T : table) (nt A : nat).
Hypotheses (NT : nt <> 0%nat) (HA : forall r, (fst (t_ants T r) < A)%nat /\ (snd (t_ants T r) < A)%nat) (A32 : N.of_nat A < 2 ^ 32).
Notation sys := (sys cfg T nt).
Notation cst := (cst cfg T nt). Notation man := (man cfg T nt). Notation active := (active cfg T nt).
Notation ncol := (ncol cfg T nt). Notation running := (running cfg T nt). Notation colenv := (colenv cfg T nt).
Context (m : stman) (ok : N -> Prop).
Notation S0 := (sopen cfg T nt m).
Notation n := (rowsPerBlock m). Notation na := (N.to_nat (antennaCount m)).
Hypotheses (St : sstart cfg T nt S0) (Zn : n <> 0) (Ft : fits32 m).
Hypothesis Good : forall i col r, nth_error (columns m) i = Some col -> ok r -> r / n < nBlocksInFile m ->
  exists y, disk m col (r / n) = Some y /\ nth_error (dec (colenv i) n na (r / n) y) (N.to_nat (r mod n)) <> None.

Theorem answered S' i r S1 S2 : sys_reading ok S0 S' -> scall cfg T nt S' S1 i (Get r) -> ok r -> srun S1 S2 -> idle S2 -> sys_reading ok S0 S2 /\ exists a, outs (cst S2 i) = (r, a) :: outs (cst S' i).
Proof.
  intros Rd Sc Hr Run Id.
  assert (Hi : (i < ncol S')%nat) by apply Sc.
  assert (X : sys_reading ok (sopen cfg T nt m) S2 /\ (i < ncol S2)%nat /\ answering r (outs (cst S' i)) (cst S2 i)).
  { clear Id. induction Run as [|S1' S2' Run IH Mv|S1' S2' Run IH Wk].
    - split; [eapply sr_get; eauto|]. destruct Sc as (_ & _ & _ & _ & _ & _ & E & Em & _). split; [unfold System.ncol; rewrite Em; exact Hi|].
      rewrite E. left. split; [reflexivity|]. exists [], (IGet r). repeat split; [constructor|now left].
    - destruct IH as (Rd1 & H1 & A1). assert (Rd2 : sys_reading ok (sopen cfg T nt m) S2') by (eapply sr_move; eauto).
      pose proof (rd_reading cfg T nt A NT HA A32 m ok St Zn Ft Good S1' Rd1) as D1.
      pose proof (rd_reading cfg T nt A NT HA A32 m ok St Zn Ft Good S2' Rd2) as D2.
      pose proof (move_columns cfg T nt S1' S2' Mv) as Nc. split; trivial. split; [lia|].
      destruct (moves cfg T nt A NT HA A32 (sopen cfg T nt m) S1' S2' St (rd_si cfg T nt A NT HA A32 m ok St Ft S1' D1 Rd1) (rd_si cfg T nt A NT HA A32 m ok St Ft S2' D2 Rd2) Mv (proj1 D2) i H1) as [E|Ss Nd|n' m' c Ha Hc Cl' Rz Cj Clj E].
      + now rewrite E.
      + eapply answering_step; eauto. apply D2. lia.
      + exfalso. rewrite (r_rpb _ _ _ _ _ _ (rd_rinv cfg T nt m ok Zn S1' i D1 H1)) in Rz. contradiction.
    - destruct IH as (Rd1 & H1 & A1). assert (Rd2 : sys_reading ok (sopen cfg T nt m) S2') by (eapply sr_wake; eauto).
      pose proof (rd_reading cfg T nt A NT HA A32 m ok St Zn Ft Good S2' Rd2) as D2.
      assert (Nc : ncol S2' = ncol S1') by (destruct Wk as [? ? ? ? ? Em _|? ? ? ? Em _]; unfold System.ncol; now rewrite Em).
      split; trivial. split; [lia|]. destruct (wakes cfg T nt S1' S2' Wk i H1) as [E|Ss Nd|n' m' c Ha Hc Cl' Rz Cj Clj E].
      + now rewrite E.
      + eapply answering_step; eauto. apply D2. lia.
      + exfalso. pose proof (rd_reading cfg T nt A NT HA A32 m ok St Zn Ft Good S1' Rd1) as D1.
        rewrite (r_rpb _ _ _ _ _ _ (rd_rinv cfg T nt m ok Zn S1' i D1 H1)) in Rz. contradiction. }
  destruct X as (Rd2 & H2 & [(_ & l & x & Hc & _)|(_ & Ha)]); [|exact (conj Rd2 Ha)]. rewrite (Id i H2) in Hc. destruct l; discriminate.
Qed.
End answered.

Section SystemAll.
Context (cfg : nat -> coldef) (T : table) (nt : nat) (m0 : stman) (D : forall i, N -> list (data (colenv cfg T nt i))) (K : N) (L : nat -> f32) (n : N) (na : nat).
Hypothesis W : writable cfg T nt m0 D K L n na.
Notation sys := (sys cfg T nt).
Notation cst := (cst cfg T nt). Notation man := (man cfg T nt). Notation active := (active cfg T nt).
Notation ncol := (ncol cfg T nt). Notation running := (running cfg T nt). Notation colenv := (colenv cfg T nt).
Notation order := (sys_order cfg T nt m0 D K).
Let NT := wr_threads _ _ _ _ _ _ _ _ _ W.
Let HA := allA_below T (wr_ants _ _ _ _ _ _ _ _ _ W).
Let HD : forall i r, (nSamp (colenv i) <= length (D i r))%nat := wr_rows _ _ _ _ _ _ _ _ _ W.
Let New := wr_new _ _ _ _ _ _ _ _ _ W.
Let Co := wr_columns _ _ _ _ _ _ _ _ _ W.
Let Da := wr_data _ _ _ _ _ _ _ _ _ W.
Let Ln := wr_more _ _ _ _ _ _ _ _ _ W.
Let Fn := wr_first _ _ _ _ _ _ _ _ _ W.
Let An := wr_count _ _ _ _ _ _ _ _ _ W.
Let Nm := wr_name _ _ _ _ _ _ _ _ _ W.
Let Af := wr_af _ _ _ _ _ _ _ _ _ W.
Let Tot := wr_size _ _ _ _ _ _ _ _ _ W.

Theorem never_fails ks S : order ks S -> running S /\ fits32 (man S).
Proof. intros H. destruct (order_well cfg T nt allA NT HA allA_32 m0 D K L HD New Co n na Ln Fn An Nm Af Tot ks S H) as (R & Ft & _). now split. Qed.

Theorem writing_finishes ks S : order ks S -> sfinishes S.
Proof. exact (order_finishes cfg T nt allA NT HA allA_32 m0 D K L HD New Co Da n na Ln Fn An Nm Af Tot ks S). Qed.

Lemma all_so ks S : order ks S -> SO cfg T nt allA m0 D K ks S /\ running S.
Proof. exact (order_so cfg T nt allA NT HA allA_32 m0 D K L HD New Co n na Ln Fn An Nm Af Tot ks S). Qed.

Lemma all_ncol ks S : order ks S -> ncol S = length (columns m0).
Proof. intros H. apply (so_ncol cfg T nt allA m0 D K ks S). now apply all_so. Qed.

Lemma all_af ks S : order ks S -> forall i, (i < ncol S)%nat -> af_of (cfg i) = true -> forall r, (fst (t_ants T r) < na)%nat /\ (snd (t_ants T r) < na)%nat.
Proof. intros H i Hi. apply Af. now rewrite <- (all_ncol ks S H). Qed.

Theorem round_trip ks S : order ks S -> all_closed S -> forall mo nr, reopens (man S) mo ->
  exists m2 m3, openMan nr mo = Ok m2 /\ prepareMan m2 = Ok m3 /\ columns m3 = columns (man S) /\ rowsPerBlock m3 = n /\ antennaCount m3 = N.of_nat na /\ same_options m0 m3 /\
    forall S', sys_reading (fun r => r < K) (sopen cfg T nt m3) S' -> running S' /\ man S' = m3 /\
    forall i r a, (i < ncol S)%nat -> In (r, a) (outs (cst S' i)) -> r < K /\ exists out x y, a = AVals out /\
      exact_block (colenv i) (D i) K n (r / n) x /\ file (cst S i) (r / n) = Some y /\
      kept (cfg i) (L i) na x (floats (nMetaFloats (codec_of (cfg i)) (N.to_nat n) na) y) (DRow (fst (t_ants T r)) (snd (t_ants T r)) (firstn (nPol_of (cfg i) * nChan_of (cfg i)) (D i r))) out.
Proof.
  intros H Cl mo nr Ro. destruct (never_fails ks S H) as (R & Ft).
  exact (written_read_all cfg T nt allA NT HA allA_32 m0 D K L HD New Co Da ks S n na H R Ft Cl Ln Fn An (all_af ks S H) mo nr Ro).
Qed.

Theorem reads_finish ks S : order ks S -> all_closed S -> forall mo nr, reopens (man S) mo ->
  exists m2 m3, openMan nr mo = Ok m2 /\ prepareMan m2 = Ok m3 /\
    forall S', sys_reading (fun r => r < K) (sopen cfg T nt m3) S' -> sfinishes S' /\
      forall i r S1 S2, scall cfg T nt S' S1 i (Get r) -> r < K -> srun S1 S2 -> idle S2 -> exists a, outs (cst S2 i) = (r, a) :: outs (cst S' i).
Proof.
  intros H Cl mo nr Ro. destruct (never_fails ks S H) as (R & Ft).
  destruct (written_opens cfg T nt allA NT HA allA_32 m0 D K L HD New Co Da ks S n na H R Ft Cl Ln Fn An (all_af ks S H) mo nr Ro) as (m2 & m3 & O & P & M3 & M1 & M2 & _ & M5 & M6 & _ & Good).
  exists m2, m3. split; trivial. split; trivial. intros S' Rd. assert (Zm : rowsPerBlock m3 <> 0) by (rewrite M1; destruct Fn; lia).
  pose proof (fun i col r Hc Hr (_ : r / rowsPerBlock m3 < nBlocksInFile m3) => Good i col r Hc Hr) as Good'.
  split; [exact (reading_finishes cfg T nt allA NT HA allA_32 m3 (fun r => r < K) M5 Zm M6 Good' S' Rd)|].
  intros i r S1 S2. intros Sc Hr Run Id. exact (proj2 (answered cfg T nt allA NT HA allA_32 m3 (fun r => r < K) M5 Zm M6 Good' S' i r S1 S2 Rd Sc Hr Run Id)).
Qed.

(** ** The table can be written as a whole *)
Lemma run_idle S : sfinishes S -> forall ks, order ks S -> exists S', sreach cfg T nt S S' /\ order ks S' /\ idle S'.
Proof.
  induction 1 as [S Id|S (S1 & Mv) _ IH]; intros ks H.
  - exists S. repeat split; trivial. constructor.
  - destruct (IH S1 Mv ks) as (S' & H1 & H2); [eapply so_move; eauto|]. exists S'. split; trivial.
    clear - Mv H1. induction H1; [|eapply sreach_step; eauto]. eapply sreach_step; [constructor|now apply ss_move].
Qed.

Lemma sreach_trans S S1 S2 : sreach cfg T nt S S1 -> sreach cfg T nt S1 S2 -> sreach cfg T nt S S2.
Proof. intros H1 H2. induction H2; trivial. eapply sreach_step; eauto. Qed.

Lemma pick_column (f : nat -> bool) N : (exists i, (i < N)%nat /\ f i = true) \/ (forall i, (i < N)%nat -> f i = false).
Proof.
  induction N as [|N [(i & H1 & H2)|H]]; [right; intros; lia|left; exists i; split; [lia|trivial]|]. destruct (f N) eqn:E; [left; exists N; split; [lia|trivial]|].
  right. intros i Hi. destruct (Nat.eq_dec i N) as [->|]; trivial. apply H. lia.
Qed.

Definition unput (ks : nat -> N) : nat := sum (fun j => N.to_nat (K - ks j)) (seq 0 (length (columns m0))).
Definition unclosed (S : sys) : nat := sum (fun j => if closed (cst S j) then 0 else 1)%nat (seq 0 (length (columns m0))).

Lemma call_made S i (a : call (colenv i)) : exists S', cst S' i = set_code (cst S i) (call_code a) /\ man S' = man S /\ active S' = i /\ (forall j, j <> i -> cst S' j = cst S j).
Proof.
  exists (Sys cfg T nt (man S) (change cfg T nt S i (set_code (cst S i) (call_code a)) (fun _ s => s)) i). cbn [System.cst System.man System.active].
  split; [apply change_same|]. split; trivial. split; trivial. intros j Hj. now apply change_other.
Qed.

Hypothesis K32 : K <= 2 ^ 32.

Lemma puts_all k : forall ks S, (unput ks <= k)%nat -> order ks S -> exists ks' S', sreach cfg T nt S S' /\ order ks' S' /\ idle S' /\ (forall j, (j < ncol S')%nat -> ks' j = K).
Proof.
  induction k as [|k IH]; intros ks S Hk H; destruct (run_idle S (writing_finishes ks S H) ks H) as (S1 & R1 & H1 & Id); destruct (all_so ks S1 H1) as (I & Rn); pose proof (all_ncol ks S1 H1) as Nc;
    destruct (pick_column (fun j => ks j <? K) (ncol S1)) as [(i & Hi & Li)|All].
  - exfalso. apply N.ltb_lt in Li. unfold unput in Hk. assert (Hin : In i (seq 0 (length (columns m0)))) by (apply in_seq; lia).
    clear - Hk Hin Li. induction (seq 0 (length (columns m0))) as [|a l IH]; [destruct Hin|]. rewrite sum_cons in Hk. destruct Hin as [->|Hin]; [lia|]. apply IH; trivial. lia.
  - exists ks, S1. repeat split; trivial. intros j Hj. specialize (All j Hj). apply N.ltb_ge in All. pose proof (o_le _ _ _ _ _ _ _ _ _ I j Hj). lia.
  - apply N.ltb_lt in Li. destruct (call_made S1 i (Put (ks i) (D i (ks i)))) as (S2 & E1 & E2 & E3 & E4).
    assert (Op : forall j, (j < ncol S1)%nat -> closed (cst S1 j) = false).
    { intros j Hj. destruct (closed (cst S1 j)) eqn:Cj; trivial. destruct (o_end _ _ _ _ _ _ _ _ _ I (ex_intro _ j (conj Hj (or_intror Cj))) i Hi). lia. }
    assert (Sc : scall cfg T nt S1 S2 i (Put (ks i) (D i (ks i)))).
    { repeat (split; [auto|]); trivial. cbn. lia. }
    assert (H2 : order (fun j => if (j =? i)%nat then ks i + 1 else ks j) S2) by (eapply so_put; eauto).
    destruct (IH (fun j => if (j =? i)%nat then ks i + 1 else ks j) S2) as (ks' & S' & Q1 & Q2); [|exact H2|].
    + unfold unput in *. pose proof (sum_one (fun j => N.to_nat (K - ks j)) (fun j => N.to_nat (K - (if (j =? i)%nat then ks i + 1 else ks j))) i (seq 0 (length (columns m0))) (seq_NoDup _ _)) as Q.
      cbn beta in Q. rewrite Nat.eqb_refl in Q. specialize (Q ltac:(apply in_seq; lia)). assert (X : forall j, In j (seq 0 (length (columns m0))) -> j <> i -> N.to_nat (K - (if (j =? i)%nat then ks i + 1 else ks j)) = N.to_nat (K - ks j)) by (intros j _ Nj; apply Nat.eqb_neq in Nj; now rewrite Nj).
      specialize (Q X). lia.
    + exists ks', S'. split; trivial. apply (sreach_trans S S1); trivial. apply (sreach_trans S1 S2); trivial. eapply sreach_step; [constructor|]. eapply ss_call; eauto.
  - exists ks, S1. repeat split; trivial. intros j Hj. specialize (All j Hj). apply N.ltb_ge in All. pose proof (o_le _ _ _ _ _ _ _ _ _ I j Hj). lia.
Qed.

(** closed columns stay closed *)
Lemma run_closing S : sfinishes S -> forall ks, order ks S -> exists S', sreach cfg T nt S S' /\ order ks S' /\ idle S' /\
  forall j, (j < ncol S)%nat -> closed (cst S j) = true \/ code (cst S j) = [IShutdown] -> closed (cst S' j) = true.
Proof.
  induction 1 as [S Id|S (S1 & Mv) _ IH]; intros ks H.
  - exists S. repeat split; trivial; [constructor|]. intros j Hj [|C]; trivial. rewrite (Id j Hj) in C. discriminate.
  - assert (H' : order ks S1) by (eapply so_move; eauto). destruct (IH S1 Mv ks H') as (S' & H1 & H2 & H3 & H4). exists S'. split; [|split; [trivial|split; trivial]].
    + clear - Mv H1. induction H1; [|eapply sreach_step; eauto]. eapply sreach_step; [constructor|now apply ss_move].
    + destruct (all_so ks S H) as (I & R). destruct (all_so ks S1 H') as (I' & R'). pose proof (move_columns cfg T nt S S1 Mv) as Nc.
      intros j Hj Cj. apply H4; [lia|].
      destruct (moves cfg T nt allA NT HA allA_32 (snew cfg T nt m0) S S1 (Sm cfg T nt m0 (New' cfg m0 New)) (o_si _ _ _ _ _ _ _ _ _ I) (o_si _ _ _ _ _ _ _ _ _ I') Mv R' j Hj) as [E|St Nd|n' m' c Ha Hc Cl' Rz Cj' Clj E].
      * now rewrite E.
      * inversion St as [? Si|a R0 C0 C1 A Ea|k0 Hj0 Ea|Hj0 Ea|k0 H1' H2' H3' Ea]; subst.
        -- inversion Si as [junk i c ? _ Hc Mw E J Ea|k0 w y s1 w1 _ Hw Hy E Ea]; subst.
           ++ destruct Cj as [Cj|Cj]; [left; destruct (exec_closing _ _ _ _ _ Hc E) as (_ & X & _); auto|]. rewrite Hc in Cj. injection Cj as -> ->. cbn [exec] in E. injection E as <-. left. reflexivity.
           ++ destruct (wexec_closing _ _ _ _ _ k0 E) as (X1 & X2). rewrite X1, X2. exact Cj.
        -- destruct Cj as [Cj|Cj]; [now left|congruence].
        -- exact Cj.
        -- exact Cj.
        -- exact Cj.
      * destruct Cj as [Cj|Cj]; congruence.
Qed.

Lemma close_all k : forall ks S, (unclosed S <= k)%nat -> order ks S -> idle S -> (forall j, (j < ncol S)%nat -> ks j = K) ->
  exists S', sreach cfg T nt S S' /\ order ks S' /\ all_closed S'.
Proof.
  induction k as [|k IH]; intros ks S Hk H Id Al; destruct (all_so ks S H) as (I & R); pose proof (all_ncol ks S H) as Nc;
    destruct (pick_column (fun j => negb (closed (cst S j))) (ncol S)) as [(i & Hi & Li)|All].
  - exfalso. apply negb_true_iff in Li. unfold unclosed in Hk. assert (Hin : In i (seq 0 (length (columns m0)))) by (apply in_seq; lia).
    clear - Hk Hin Li. induction (seq 0 (length (columns m0))) as [|a l IH]; [destruct Hin|]. rewrite sum_cons in Hk. destruct Hin as [->|Hin]; [rewrite Li in Hk; lia|]. apply IH; trivial. lia.
  - exists S. repeat split; trivial; [constructor|specialize (All i H0); now apply negb_false_iff in All|now apply Id].
  - apply negb_true_iff in Li. destruct (call_made S i Shutdown) as (S2 & E1 & E2 & E3 & E4).
    assert (Sc : scall cfg T nt S S2 i Shutdown).
    { split; trivial. split; trivial. split; [exact Id|]. split; trivial. split; [exact Logic.I|]. split; [now intros []|]. auto. }
    assert (H2 : order ks S2) by (eapply so_close; eauto). assert (Nc2 : ncol S2 = ncol S) by (unfold System.ncol; now rewrite E2).
    destruct (run_closing S2 (writing_finishes ks S2 H2) ks H2) as (S3 & Q1 & Q2 & Q3 & Q4). pose proof (all_ncol ks S3 Q2) as Nc3.
    destruct (IH ks S3) as (S' & P1 & P2); trivial.
    + assert (Ci : closed (cst S3 i) = true) by (apply Q4; [lia|right; rewrite E1; reflexivity]).
      assert (Cj : forall j, (j < ncol S)%nat -> closed (cst S j) = true -> closed (cst S3 j) = true).
      { intros j Hj Cj. apply Q4; [lia|left]. destruct (Nat.eq_dec j i) as [->|Nj]; [congruence|]. now rewrite (E4 j Nj). }
      unfold unclosed in *. rewrite <- Nc in *. clear - Hk Ci Cj Hi Li.
      assert (X : forall l, (forall j, In j l -> (j < ncol S)%nat) -> (sum (fun j => if closed (cst S3 j) then 0 else 1) l <= sum (fun j => if closed (cst S j) then 0 else 1) l /\
        (In i l -> sum (fun j => if closed (cst S3 j) then 0 else 1) l < sum (fun j => if closed (cst S j) then 0 else 1) l))%nat).
      { induction l as [|a l IHl]; intros Hl; [split; [apply Nat.le_refl|intros []]|]. rewrite !sum_cons. destruct (IHl ltac:(intros j Hj; apply Hl; now right)) as (I1 & I2).
        assert (Xa : ((if closed (cst S3 a) then 0 else 1) <= (if closed (cst S a) then 0 else 1))%nat).
        { destruct (closed (cst S a)) eqn:Ca; [rewrite (Cj a); trivial; apply Hl; now left|]. destruct (closed (cst S3 a)); lia. }
        split; [lia|]. intros [->|Hin]; [rewrite Ci, Li in *; lia|specialize (I2 Hin); lia]. }
      destruct (X (seq 0 (ncol S))) as (_ & X2); [intros j Hj; apply in_seq in Hj; lia|]. specialize (X2 ltac:(apply in_seq; lia)). lia.
    + intros j Hj. apply Al. lia.
    + exists S'. split; trivial. apply (sreach_trans S S3); trivial. apply (sreach_trans S S2); trivial. eapply sreach_step; [constructor|]. eapply ss_call; eauto.
  - exists S. repeat split; trivial; [constructor|specialize (All i H0); now apply negb_false_iff in All|now apply Id].
Qed.

Theorem can_be_closed ks S : order ks S -> exists ks' S', sreach cfg T nt S S' /\ order ks' S' /\ all_closed S'.
Proof.
  intros H. destruct (puts_all (unput ks) ks S ltac:(lia) H) as (ks1 & S1 & R1 & H1 & Id & Al).
  destruct (close_all (unclosed S1) ks1 S1 ltac:(lia) H1 Id Al) as (S2 & R2 & H2 & C2). exists ks1, S2. split; [now apply (sreach_trans S S1)|]. now split.
Qed.
End SystemAll.
