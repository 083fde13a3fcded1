(** Writing a new table in row order: the encoding threads can encode, the calls terminate. *)
From Verif Require Import Base BaseLemmas Floats TimeBlockBuffer TbbSpec TbbProofs BitStream BytePacker File FileProofs StMan StManSpec StManProofs.
From Verif Require Import StochasticEncoder TimeBlockEncoders TbeSpec Weights WeightSpec Block BlockSpec BlockProofs BlockEnc BlockGood Column ColumnSpec ColumnProofs ColumnInv ColumnReach ColumnTerm ColumnData ColumnOrder ColumnWhole ColumnAmong ColumnRead
  StoredColumn StoredProofs System SystemSpec SystemLow SystemCols SystemInv SystemOrder SystemEnd SystemRead SystemWrite SystemTerm.
From Coq Require Import ZifyNat ZifyN.
Local Open Scope N_scope.
Local Arguments busy : simpl never. Local Arguments upd : simpl never. Local Arguments insert : simpl never.
Local Arguments erase : simpl never. Local Arguments cached : simpl never. Local Arguments markWritten : simpl never.
Local Arguments maxCache : simpl never.
Local Arguments System.colenv : simpl never.

(** ** The blocks that are stored hold rows that were put *)
Section puts.
Context {e : env} (o : Prop) (D : N -> list (data e)) (HD : forall r, (nSamp e <= length (D r))%nat) (K : N).

Definition puts (s : state e) : Prop := rpb s <> 0 -> forall b x, last s b = Some x -> only_put e D (rpb s) b x.

Lemma puts_ext (s s' : state e) : puts s -> rpb s' = rpb s -> last s' = last s -> puts s'.
Proof. intros H E1 E2. unfold puts. now rewrite E1, E2. Qed.

Lemma puts_none (s : state e) : (forall b, last s b = None) -> puts s.
Proof. intros H _ b x Hx. now rewrite H in Hx. Qed.

Lemma puts_store k (s s' : state e) c : ord o D k s -> rpb s <> 0 -> code s = IStore :: c -> among K k s' -> rpb s' = rpb s -> last s' (cur s) = Some (tb s) -> only_put e D (rpb s) (cur s) (tb s).
Proof.
  intros [A|[B|O]] Rz Hc Am Er El.
  - destruct A as (m & R0 & _). contradiction.
  - destruct B as (n & na & m & Nk & A1 & A2 & A3 & A4 & A5 & A6 & Rw & Lb & Lt & Ok & H). assert (Zn : n <> 0) by congruence. rewrite A3 in *.
    destruct (codes_kind (e := e) D k n m s IStore c Zn H Hc) as [(X & _)|[(_ & Ch & Cu & Hm)|[(X & _)|X]]]; try discriminate; try contradiction.
    assert (Up : cur s * n + N.of_nat (length (tb s)) <= m).
    { destruct (codes_store D k n m s c H Hc) as [(-> & Mz & Cl)|(Cl & ->)].
      - destruct (div_pred n m Zn Mz Hm) as (D1 & D2). pose proof (N.div_mod m n Zn) as Em. rewrite Mz, N.add_0_r in Em. rewrite <- Cu in D1.
        assert (Q : (cur s + 1) * n = m) by (replace (cur s + 1) with (m / n) by lia; lia). nia.
      - destruct (Am ltac:(congruence)) as (_ & Am'). rewrite Er in Am'. now apply (Am' (cur s)). }
    intros i row Hi. assert (Li : (i < length (tb s))%nat) by (apply nth_error_Some; congruence). set (r := cur s * n + N.of_nat i).
    assert (Hd : cur s = r / n) by (apply (N.div_unique _ _ _ (N.of_nat i)); unfold r; lia).
    assert (Hr : r mod n = N.of_nat i) by (symmetry; apply (N.mod_unique _ _ (cur s)); unfold r; lia).
    destruct (Rw r ltac:(unfold r; lia)) as [(_ & _ & rw & Hn & Hv)|([F|F] & _)]; [|congruence|contradiction].
    rewrite Hr, Nat2N.id in Hn. congruence.
  - destruct O as (_ & n & na & _ & _ & _ & R0 & _). contradiction.
Qed.

Lemma puts_main k (s s' : state e) junk i c : ord o D k s -> inv (fun _ => None) s -> among K k s' -> puts s -> code s = i :: c -> exec junk s i c = Some s' -> puts s'.
Proof.
  intros Or I Am W Hc E.
  assert (B : (rpb s' = rpb s /\ last s' = last s) \/ (exists n m, i = ISetRpb n m) \/ (i = IStore /\ rpb s' = rpb s /\ last s' = upd_map (last s) (cur s) (tb s))).
  { destruct i; cbn [exec] in E; unfold put_buffer, load, notify in E;
    repeat match type of E with
    | Some (if ?b then _ else _) = Some _ => destruct b
    | Some (match ?b with _ => _ end) = Some _ => destruct b
    | (if ?b then _ else _) = Some _ => destruct b
    | match ?b with _ => _ end = Some _ => destruct b
    end; try discriminate; injection E as <-; sm; eauto; left; cbn;
    repeat match goal with |- context [match ?b with _ => _ end] => destruct b end; now split. }
  destruct B as [(E1 & E2)|[(n & m & ->)|(-> & E1 & E2)]].
  - now apply (puts_ext s).
  - assert (Ql : forall b, last s b = None).
    { pose proof (i_phase _ _ I) as P. rewrite Hc in P. inversion P; subst; try (destruct (changed s); discriminate);
      match goal with B : base s |- _ => apply B; trivial end. }
    cbn [exec] in E. apply puts_none. repeat match type of E with
    | (if ?b then _ else _) = Some _ => destruct b
    end; try discriminate; injection E as <-; sm; trivial; cbn; repeat match goal with |- context [match ?b with _ => _ end] => destruct b end; trivial.
  - intros Z b x. rewrite E2. unfold upd_map. rewrite E1 in *. destruct (N.eqb_spec b (cur s)) as [->|]; [|now apply W]. intros [= <-].
    apply (puts_store k s s' c); trivial. rewrite E2. unfold upd_map. now rewrite N.eqb_refl.
Qed.

Lemma puts_step k (s s' : state e) : ord o D k s -> inv (fun _ => None) s -> among K k s' -> puts s -> step s s' -> puts s'.
Proof.
  intros Or I Am W St. destruct (step_other s s' St) as [(a & ->)|[(junk & i & c & R & Hc & E & J)|(E1 & _ & _ & E2)]]; [exact W|eapply puts_main; eauto|now apply (puts_ext s)].
Qed.
End puts.

(** ** What can be encoded *)
Lemma col_encodes c L T nt rp na (x : tbb (sample (codec_of c))) : let E := stored_column (codec_of c) (af_of c) (bits_of c) (nPol_of c * nChan_of c) T nt in
  nt <> 0%nat -> coldef_ok c L -> (0 < nPol_of c)%nat -> (0 < nChan_of c)%nat -> x <> [] ->
  match c as c return tbb (sample (codec_of c)) -> Prop with CWeight p n b => fun x => Forall (Forall nonneg) (map (@visibilities f32) x) | _ => fun _ => True end x ->
  encodable E rp na x = true -> exists y, enc E rp na x y.
Proof.
  destruct c as [e p n b|e p n b|e p n b|p n b]; cbn [codec_of af_of bits_of nPol_of nChan_of coldef_ok]; intros NT Co Hp Hn Nx Nn Ex.
  - destruct Co. eapply row_encodes; eauto.
  - destruct Co. eapply rf_encodes; eauto.
  - destruct Co. eapply af_encodes; eauto.
  - destruct (encodable_rows _ _ _ _ Ex) as (L1 & Ro & _).
    assert (Re : regular p n (map (@visibilities f32) x)).
    { split; [lia|]. apply Forall_forall. intros v Hv. apply in_map_iff in Hv as (rw & <- & Hi). etransitivity; [exact (Ro rw Hi)|]. apply Nat.mul_comm. }
    destruct (weight_block p n b (N.to_nat rp) na (fun _ => (0, 0)%nat) x _ _ Co Re Nn L1 (zero_buffers b (weight_codec p n b) _ _)) as (y & pa & sy & Ey & _).
    exists y. split; [clear - L1; unfold stored_column in *; cbn [data] in *; lia|]. do 4 eexists. split; [apply zero_buffers|exact Ey].
Qed.

Lemma weights_nonneg c (d : N -> list (sample (codec_of c))) T nt rp b (x : tbb (sample (codec_of c))) : data_ok c d ->
  only_put (stored_column (codec_of c) (af_of c) (bits_of c) (nPol_of c * nChan_of c) T nt) d rp b x ->
  match c as c return tbb (sample (codec_of c)) -> Prop with CWeight p n b => fun x => Forall (Forall nonneg) (map (@visibilities f32) x) | _ => fun _ => True end x.
Proof.
  revert d x. destruct c as [| | |p ch bi]; trivial. intros d x Hn Pu. cbn [data_ok] in Hn.
  apply Forall_forall. intros v Hv. apply in_map_iff in Hv as (rw & <- & Hr). apply In_nth_error in Hr as (k & Hk).
  assert (Q : @visibilities f32 rw = @firstn f32 (p * ch) (d (b * rp + N.of_nat k))) by exact (Pu k rw Hk). apply Forall_forall. intros z Hz. rewrite Q in Hz. specialize (Hn (b * rp + N.of_nat k)). rewrite Forall_forall in Hn. apply Hn.
  rewrite <- (firstn_skipn (p * ch) (d (b * rp + N.of_nat k))). apply in_or_app. left. exact Hz.
Qed.

Section SystemPuts.
Context (cfg : nat -> coldef) (T : table) (nt A : nat).
Hypotheses (NT : nt <> 0%nat) (HA : forall r, (fst (t_ants T r) < A)%nat /\ (snd (t_ants T r) < A)%nat) (A32 : N.of_nat A < 2 ^ 32).
Notation sys := (sys cfg T nt).
Notation cst := (cst cfg T nt). Notation man := (man cfg T nt). Notation active := (active cfg T nt).
Notation ncol := (ncol cfg T nt). Notation running := (running cfg T nt). Notation colenv := (colenv cfg T nt).
Context (m0 : stman) (D : forall i, N -> list (data (colenv i))) (K : N) (L : nat -> f32).
Hypotheses (HD : forall i r, (nSamp (colenv i) <= length (D i r))%nat) (New : new_table cfg m0).
Hypotheses (Co : forall i, coldef_ok (cfg i) (L i)) (Da : forall i, data_ok (cfg i) (D i)).
Context (n : N) (na : nat).
Hypotheses (Ln : n < K) (Fn : first_block (colenv 0) n) (An : antenna_count (colenv 0) n na) (Nm : Forall (fun v => v < 2 ^ 8) (name m0)).
Hypotheses (Af : forall i, (i < length (columns m0))%nat -> af_of (cfg i) = true -> forall r, (fst (t_ants T r) < na)%nat /\ (snd (t_ants T r) < na)%nat).
Hypotheses (Tot : total n (N.of_nat na) (columns m0) < 2 ^ 32).
Notation SO := (SO cfg T nt A m0 D K).
Notation order := (sys_order cfg T nt m0 D K).

Lemma order_so ks S : order ks S -> SO ks S /\ running S.
Proof.
  intros H. destruct (order_well cfg T nt A NT HA A32 m0 D K L HD New Co n na Ln Fn An Nm Af Tot ks S H) as (R & Ft & _).
  split; trivial. now apply (so_reach cfg T nt A NT HA A32 m0 D K HD (New' cfg m0 New)).
Qed.

Lemma moved_puts ks S S' j : order ks S -> order ks S' -> ncol S' = ncol S -> (j < ncol S)%nat -> moved cfg T nt S S' j -> puts (D j) (cst S j) -> puts (D j) (cst S' j).
Proof.
  intros H H' Nc Hj Mv W. destruct (order_so ks S H) as (I & R). destruct (order_so ks S' H') as (I' & R').
  destruct Mv as [E|St Cd|n' m' c Ha Hc Cl Rz Cj Clj E].
  - now rewrite E.
  - apply (puts_step True (D j) (HD j) K (ks j) (cst S j)); trivial.
    + apply (so_ord cfg T nt A NT m0 D K HD _ _ _ I R Hj).
    + apply (so_inv cfg T nt A NT m0 D K (New' cfg m0 New) ks S j I R Hj).
    + apply (o_among _ _ _ _ _ _ _ _ _ I'). lia.
  - rewrite E. exact W.
Qed.

Lemma order_puts ks S : order ks S -> forall j, (j < ncol S)%nat -> puts (D j) (cst S j).
Proof.
  induction 1 as [|ks S S' i H W Lk Sc|ks S S' i H W Lk Sc|ks S S' H W Mv|ks S S' H W Wk].
  - intros j _. now apply puts_none.
  - pose proof Sc as (Hi & _ & _ & _ & _ & _ & E & Em & _ & Eo). unfold System.ncol. rewrite Em. intros j Hj. destruct (Nat.eq_dec j i) as [->|Nj]; [rewrite E; now apply W|rewrite (Eo j Nj); now apply W].
  - pose proof Sc as (Hi & _ & _ & _ & _ & _ & E & Em & _ & Eo). unfold System.ncol. rewrite Em. intros j Hj. destruct (Nat.eq_dec j i) as [->|Nj]; [rewrite E; now apply W|rewrite (Eo j Nj); now apply W].
  - pose proof (move_columns cfg T nt S S' Mv) as Nc. intros j Hj. rewrite Nc in Hj. assert (H' : order ks S') by (eapply so_move; eauto).
    apply (moved_puts ks S S' j); trivial; [|now apply W].
    destruct (order_so ks S H) as (I & R). destruct (order_so ks S' H') as (I' & R').
    apply (moves cfg T nt A NT HA A32 (snew cfg T nt m0) S S'); trivial; [apply (Sm cfg T nt m0 (New' cfg m0 New))|apply (o_si _ _ _ _ _ _ _ _ _ I)|apply (o_si _ _ _ _ _ _ _ _ _ I')].
  - assert (Nc : ncol S' = ncol S) by (destruct Wk as [? ? ? ? ? Em _|? ? ? ? Em _]; unfold System.ncol; now rewrite Em).
    intros j Hj. rewrite Nc in Hj. apply (moved_puts ks S S' j); trivial; [eapply so_wake; eauto|now apply (wakes cfg T nt)|now apply W].
Qed.

Theorem order_can_encode ks S i : order ks S -> (i < ncol S)%nat -> can_encode (cst S i).
Proof.
  intros H Hi b x Hin Ex. destruct (order_so ks S H) as (I & R).
  pose proof (o_order _ _ _ _ _ _ _ _ _ I i Hi) as Io. pose proof (R i Hi) as Ri. pose proof (so_inv cfg T nt A NT m0 D K (New' cfg m0 New) ks S i I R Hi) as Iv.
  destruct (order_picked True (D i) (HD i) NT _ (ks i) (cst S i) b x (wholes_reach True (D i) (HD i) NT (fun _ _ => True) (fun _ => Logic.I) (ks i) (cst S i) (fun _ _ => Logic.I) Io Ri) Io Ri Hin) as (W & Nx).
  assert (Ls : last (cst S i) b = Some x) by (eapply (i_last _ _ Iv), (i_picked _ _ Iv); exact Hin).
  assert (Z : rpb (cst S i) <> 0).
  { intros Z. destruct W as (W1 & _). rewrite Z in W1. destruct x; [now apply Nx|cbn in W1; lia]. }
  pose proof (order_puts ks S H i Hi Z b x Ls) as Pu.
  destruct (nth_error (columns (man S)) i) as [col|] eqn:Hn; [|apply nth_error_None in Hn; unfold System.ncol in Hi; lia].
  destruct (si_described cfg T nt A _ S i col (o_si _ _ _ _ _ _ _ _ _ I) (nw_described _ _ New) Hn) as (_ & P1 & P2).
  apply (col_encodes (cfg i) (L i) T nt); trivial.
  exact (weights_nonneg (cfg i) (D i) T nt _ b x (Da i) Pu).
Qed.

Theorem order_finishes ks S : order ks S -> sfinishes S.
Proof.
  intros H. assert (P : exists ks, order ks S) by eauto. revert P. clear ks H.
  apply (sys_finishes cfg T nt A NT (snew cfg T nt m0) (fun S => exists ks, order ks S)).
  - apply (Sm cfg T nt m0 (New' cfg m0 New)).
  - intros S1 (ks & H). exact (o_si _ _ _ _ _ _ _ _ _ (proj1 (order_so ks S1 H))).
  - intros S1 (ks & H). exact (proj2 (order_so ks S1 H)).
  - intros S1 S' (ks & H) Mv. exists ks. eapply so_move; eauto.
  - intros S1 i (ks & H) Hi. eapply order_can_encode; eauto.
  - intros S1 i n' m' c (ks & H) Hi _ Hc. destruct (order_so ks S1 H) as (I & R).
    destruct (ord_init True (D i) (ks i) _ n' m' c (so_ord cfg T nt A NT m0 D K HD _ _ _ I R Hi) Hc) as ((F & _) & _). lia.
Qed.
End SystemPuts.

(** ** Reading *)
Section SystemGets.
Context (cfg : nat -> coldef) (T : table) (nt A : nat).
Hypotheses (NT : nt <> 0%nat) (HA : forall r, (fst (t_ants T r) < A)%nat /\ (snd (t_ants T r) < A)%nat) (A32 : N.of_nat A < 2 ^ 32).
Notation sys := (sys cfg T nt).
Notation cst := (cst cfg T nt). Notation man := (man cfg T nt). Notation active := (active cfg T nt).
Notation ncol := (ncol cfg T nt). Notation running := (running cfg T nt). Notation colenv := (colenv cfg T nt).
Context (m : stman) (ok : N -> Prop).
Notation S0 := (sopen cfg T nt m).
Notation n := (rowsPerBlock m). Notation na := (N.to_nat (antennaCount m)).
Hypotheses (St : sstart cfg T nt S0) (Zn : n <> 0) (Ft : fits32 m).
Hypothesis Good : forall i col r, nth_error (columns m) i = Some col -> ok r -> r / n < nBlocksInFile m ->
  exists y, disk m col (r / n) = Some y /\ nth_error (dec (colenv i) n na (r / n) y) (N.to_nat (r mod n)) <> None.

Theorem reading_finishes S : sys_reading ok S0 S -> sfinishes S.
Proof.
  pose proof (rd_reading cfg T nt A NT HA A32 m ok St Zn Ft Good) as Rd.
  apply (sys_finishes cfg T nt A NT S0 (sys_reading ok S0) St).
  - intros S1 H. apply (rd_si cfg T nt A NT HA A32 m ok); auto.
  - intros S1 H. apply (Rd S1 H).
  - intros S1 S' H Mv. eapply sr_move; eauto.
  - intros S1 i H Hi b x Hin. pose proof (r_workers _ _ _ _ _ _ (rd_rinv cfg T nt m ok Zn S1 i (Rd S1 H) Hi) _ Hin) as F. destruct F.
  - intros S1 i n' m' c H Hi _ Hc. exfalso. pose proof (rd_rinv cfg T nt m ok Zn S1 i (Rd S1 H) Hi) as I.
    destruct (r_code _ _ _ _ _ _ I) as [[Q|[Q|[Q|Q]]]|(row & Sm & [Q|(Lt & [Q|[Q|[Q|(Cu & Q)]]])])]; congruence.
Qed.
End SystemGets.
