(** What many sessions make of a row in which nothing is put. *)
From Verif Require Import Base BaseLemmas Floats TimeBlockBuffer BytePacker File StMan StManSpec.
From Verif Require Import BitStream StochasticEncoder TimeBlockEncoders Weights WeightSpec Block BlockSpec Column ColumnSpec StoredColumn System SystemSpec UpdateSpec RewriteSpec AppendSpec SessionSpec ColumnRewrite SystemHeld SystemRead UpdateBlock SystemRewrite SystemFinal SystemAll SystemSessions HistorySpec.
From Coq Require Import ZifyNat ZifyN.
Local Open Scope N_scope.

Lemma puts_none {A} rp (l : list (rowcall A)) b : puts_in rp l b = 0%nat -> never_put rp l b.
Proof.
  induction l as [|[r d|r] l IH]; cbn [puts_in]; intros H r' d' Hin.
  - destruct Hin.
  - destruct (N.eqb_spec (r / rp) b) as [E|E]; [discriminate|]. destruct Hin as [Q|Q]; [injection Q as <- <-; exact E|exact (IH H r' d' Q)].
  - destruct Hin as [Q|Q]; [discriminate|exact (IH H r' d' Q)].
Qed.

(** ** The column without threads: how often a block is encoded *)
Section chain.
Context {e : env} (f : N -> option (Column.bytes e)) (rp : N) (na : nat) (r : N) (okd : list (data e) -> Prop).
Notation runs := (runs rp na f). Notation b := (r / rp). Notation k := (N.to_nat (r mod rp)).
Context (R : nat -> list (data e) -> Prop).
Hypotheses (Zr : rp <> 0)
  (Step : forall l c v y j a, runs l c -> (forall r d, In (CPut r d) l -> okd d) -> put_away c b = Some (Coded v) -> codes rp na b v y -> nth_error v k = Some a -> R j a ->
     exists a', nth_error (dec e rp na b y) k = Some a' /\ R (S j) a').

Definition now (l : list (rowcall (data e))) (c : RewriteSpec.column e) : Prop :=
  (exists j a, R j a /\ match put_away c b with
     | Some (Coded v) => nth_error v k = Some a /\ (S j <= puts_in rp l b)%nat
     | Some (Bytes y) => nth_error (dec e rp na b y) k = Some a /\ (j <= puts_in rp l b)%nat
     | None => False
     end) /\
  (at_block c = Some b -> dirty c = false -> exists y, blocks c b = Some (Bytes y) /\ rows c = dec e rp na b y).

Lemma enters_now l c b' c1 : runs l c -> (forall r d, In (CPut r d) l -> okd d) -> now l c -> enters rp na c b' c1 -> now l c1.
Proof.
  intros Hr Ho ((j & a & Hj & H) & H2) En. destruct En as [Ea|y Na Ey|v y Na Ey Cy].
  - split; [exists j, a; auto|trivial].
  - split; [exists j, a; split; trivial|]. cbn. intros [= ->] _. exists y. auto.
  - destruct (N.eqb_spec b b') as [E|E].
    + subst b'. rewrite Ey in H. destruct H as (H & Hl). destruct (Step l c v y j a Hr Ho Ey Cy H Hj) as (a' & Ha & Hj').
      split; [exists (S j), a'; split; trivial; cbn; rewrite N.eqb_refl; auto|]. cbn. intros _ _. exists y. rewrite N.eqb_refl. auto.
    + split; [exists j, a; split; trivial; cbn; rewrite (proj2 (N.eqb_neq b b') E); trivial|]. cbn. intros [= Q]. now rewrite Q in E.
Qed.

Lemma runs_now l c a0 y0 : f b = Some y0 -> nth_error (dec e rp na b y0) k = Some a0 -> R 0 a0 -> runs l c -> (forall r d, In (CPut r d) l -> okd d) -> (forall d, ~ In (CPut r d) l) -> now l c.
Proof.
  intros Hf H0 HR H. induction H as [|l c x c' H IH D]; intros Ho Np.
  - split; [exists 0%nat, a0; split; trivial; cbn; rewrite Hf; cbn; split; [trivial|apply Nat.le_refl]|discriminate].
  - assert (Ho' : forall r d, In (CPut r d) l -> okd d) by (intros r0 d0 Hin; apply (Ho r0 d0); now right).
    assert (Np' : forall d, ~ In (CPut r d) l) by (intros d0 Hin; apply (Np d0); now right).
    specialize (IH Ho' Np'). destruct D as [row d c1 En|row v c1 En _].
    + pose proof (enters_now l c (row / rp) c1 H Ho' IH En) as ((j & a & Hj & Hp) & H2). apply enters_at in En. split.
      * exists j, a. split; trivial. unfold put_away. cbn [at_block dirty blocks rows puts_in]. rewrite En.
        destruct (N.eqb_spec b (row / rp)) as [E|E].
        -- rewrite <- E, N.eqb_refl. assert (Hk : N.to_nat (row mod rp) <> k).
           { intros Q. apply N2Nat.inj in Q. apply (Np d). left. f_equal. rewrite (N.div_mod row rp Zr), (N.div_mod r rp Zr). now rewrite Q, E. }
           rewrite set_nth_other by (clear - Hk; lia). rewrite <- E in En. specialize (H2 En). unfold put_away in Hp. rewrite En in Hp. destruct (dirty c1).
           ++ rewrite N.eqb_refl in Hp. split; [apply Hp|]. destruct Hp as (_ & Hp). clear - Hp. lia.
           ++ destruct (H2 eq_refl) as (y & B1 & B2). rewrite B1 in Hp. rewrite B2. split; [apply Hp|]. destruct Hp as (_ & Hp). clear - Hp. lia.
        -- rewrite (proj2 (N.eqb_neq (row / rp) b)) by congruence.
           unfold put_away in Hp. rewrite En in Hp. destruct (dirty c1); [rewrite (proj2 (N.eqb_neq b (row / rp)) E) in Hp|]; exact Hp.
      * cbn. discriminate.
    + pose proof (enters_now l c (row / rp) c1 H Ho' IH En) as ((j & a & Hj & Hp) & H2). split; [exists j, a; auto|]. trivial.
Qed.
End chain.

Section history.
Context (cfg : nat -> coldef) (T : table) (nt : nat) (m0 : stman) (D : forall i, N -> list (data (colenv cfg T nt i))) (L : nat -> f32) (n : N) (na : nat).
Notation writable K := (writable cfg T nt m0 D K L n na).
Notation stored := (stored_table cfg T nt m0 D).
Notation man := (man cfg T nt).
Notation held_row := (held_row cfg T nt). Notation held_block := (held_block cfg T nt).
Notation aged := (aged cfg T nt n).
Notation encoded i r := (encoded cfg T nt L n na i r).

(** the settings of a stored table do not change *)
Lemma stored_settings K m : writable K -> stored K m -> rowsPerBlock m = n /\ antennaCount m = N.of_nat na.
Proof. intros W St. destruct (stored_held cfg T nt m0 D K L n na W m St) as (_ & _ & H). split; [exact (hd_rows _ _ _ _ _ _ _ _ H)|exact (hd_ants _ _ _ _ _ _ _ _ H)]. Qed.
Lemma wr_positive K : writable K -> 0 < n.
Proof. intros W. apply (wr_first _ _ _ _ _ _ _ _ _ W). Qed.

Lemma same_row m m' i r : rowsPerBlock m = n /\ antennaCount m = N.of_nat na -> rowsPerBlock m' = n /\ antennaCount m' = N.of_nat na ->
  held_block m' i (r / n) = held_block m i (r / n) -> held_row m' i r = held_row m i r.
Proof. intros (E1 & E2) (E3 & E4) H. unfold SessionSpec.held_row, stored_row. rewrite E1, E2, E3, E4, H. reflexivity. Qed.

Lemma encoded_more i r j j2 v v1 v2 : encoded i r j v v1 -> encoded i r j2 v1 v2 -> encoded i r (j + j2) v v2.
Proof. intros H H2. induction H2 as [|k v1 v2 v3 H2 IH Q]; [now rewrite Nat.add_0_r|]. rewrite Nat.add_succ_r. exact (ec_more cfg T nt L n na i r _ _ _ _ (IH H) Q). Qed.

Lemma rewritten_row K m m3 l S i r v : writable K -> stored K m -> opened_from m m3 -> sys_rewriting cfg T nt (fun r => r < K) m3 l S -> all_closed S ->
  (i < length (columns m))%nat -> (forall d, ~ In (CPut r d) (calls_of cfg T nt l i)) -> held_row m i r = Some v ->
  exists v' j, held_row (man S) i r = Some v' /\ (j <= puts_in n (calls_of cfg T nt l i) (r / n))%nat /\ encoded i r j v v'.
Proof.
  intros W St Op Se Cl Hi Np Hv. destruct (stored_held cfg T nt m0 D K L n na W m St) as (N32 & Na32 & H). destruct (held_from cfg T nt m0 D K L n na W m m3 N32 Na32 H Op) as (H3 & C3 & B3 & _ & R3).
  destruct (same_held cfg T nt m0 K n na m m3 H H3 C3 B3 R3) as (X1 & X2). pose proof (wr_positive K W) as Zn.
  pose proof (wr_threads _ _ _ _ _ _ _ _ _ W) as NT. pose proof (allA_below T (wr_ants _ _ _ _ _ _ _ _ _ W)) as HA.
  assert (Hi3 : (i < length (columns m3))%nat) by (rewrite C3; exact Hi).
  pose proof (rw_enc cfg T nt allA NT HA allA_32 m0 K L n na (wr_new _ _ _ _ _ _ _ _ _ W) (wr_columns _ _ _ _ _ _ _ _ _ W) Zn N32 Na32 (wr_size _ _ _ _ _ _ _ _ _ W) (wr_af _ _ _ _ _ _ _ _ _ W) m3 _ H3 (fun r H => H)) as Enc.
  pose proof (codes_kept cfg T nt allA NT HA allA_32 m0 K L n na (wr_new _ _ _ _ _ _ _ _ _ W) (wr_columns _ _ _ _ _ _ _ _ _ W) Zn N32 Na32 (wr_size _ _ _ _ _ _ _ _ _ W) (wr_af _ _ _ _ _ _ _ _ _ W) m3 _ H3 (fun r H => H)) as Ck.
  destruct (rewritten_closed cfg T nt m0 D K L n na W m m3 l S St Op Se Cl) as (S2 & E2 & Q). destruct (Q i Hi) as (_ & c & Rn & _ & Q1).
  destruct (stored_settings K m W St) as (Em & Ea). destruct (stored_settings K (man S) W S2) as (Em2 & Ea2).
  pose proof Hv as Hv0. rewrite <- X2 in Hv0. unfold SessionSpec.held_row, stored_row in Hv0. rewrite (hd_rows _ _ _ _ _ _ _ _ H3), (hd_ants _ _ _ _ _ _ _ _ H3), Nat2N.id in Hv0.
  destruct (held_block m3 i (r / n)) as [y0|] eqn:Hy0; [|discriminate].
  assert (Zr : n <> 0) by (clear - Zn; lia). pose proof (N.div_mod r n Zr) as Dm. pose proof (N.mod_lt r n Zr) as Ml.
  assert (Ek : r / n * n + N.of_nat (N.to_nat (r mod n)) = r) by (rewrite N2Nat.id; clear - Dm; lia).
  assert (Re : forall v1 x y a row, table_rows (e := colenv cfg T nt i) n (r / n) x v1 -> fine (e := colenv cfg T nt i) n (row_ok (cfg i)) v1 -> enc (colenv cfg T nt i) n na x y -> nth_error v1 (N.to_nat (r mod n)) = Some a ->
    nth_error x (N.to_nat (r mod n)) = Some row -> forall out, kept (cfg i) (L i) na x (floats (nMetaFloats (codec_of (cfg i)) (N.to_nat n) na) y) row out -> recoded cfg T nt L n na i r a out).
  { intros v1 x y a row (Lx & Tr) (Lv & _) Ex Ha Hr out Kp. destruct (Tr _ _ Hr) as (A1 & A2). rewrite Ek in A1. exists x, y, row. split; [rewrite Lx, Lv; apply Nat.le_refl|]. split; trivial. split; trivial. split; [exact A1|]. split; [congruence|trivial]. }
  assert (Gf : forall l c, runs (e := colenv cfg T nt i) n na (held_block m3 i) l c -> (forall r d, In (CPut r d) l -> put_ok cfg T nt i d) -> forall b v1, put_away c b = Some (Coded v1) -> fine (e := colenv cfg T nt i) n (row_ok (cfg i)) v1).
  { intros l1 c1 R1 P1 b v1 Hp. destruct (runs_fine (e := colenv cfg T nt i) (held_block m3 i) (nBlocksInFile m3) n na (put_ok cfg T nt i) (sound T nt (cfg i) n na) (row_ok (cfg i)) Zr (hd_small _ _ _ _ _ _ _ _ H3)
      (rw_good cfg T nt m0 K n na m3 H3 i) (rw_dec cfg T nt n na i) (fun b x v y => Enc i b x v y Hi3) (rw_put cfg T nt i) NT l1 c1 R1 P1) as (G1 & G2).
    unfold put_away in Hp. specialize (G1 b). destruct (at_block c1) as [b1|]; [|now rewrite Hp in G1]. destruct (dirty c1); [|now rewrite Hp in G1]. destruct (b =? b1); [|now rewrite Hp in G1].
    injection Hp as <-. apply G2. discriminate. }
  pose proof (calls_ok cfg T nt m3 _ l S Se i) as Po.
  destruct (runs_now (e := colenv cfg T nt i) (held_block m3 i) n na r (put_ok cfg T nt i) (fun j a => encoded i r j v a) Zr) with (l := calls_of cfg T nt l i) (c := c) (a0 := v) (y0 := y0) as ((j & a & Ch & Hp) & _); trivial.
  - intros l1 c1 v1 y j a R1 P1 Pa Cy Ha Ch. pose proof (Gf l1 c1 R1 P1 _ _ Pa) as Fv. destruct (Ck i (r / n) v1 y Hi3 Fv Cy) as (x & Tr & Ex & Kx).
    destruct (nth_error x (N.to_nat (r mod n))) as [row|] eqn:Er; [|apply nth_error_None in Er; destruct Tr as (Lx & _); assert (N.to_nat (r mod n) < length v1)%nat by (apply nth_error_Some; congruence); exfalso; clear - Er H0 Lx; lia].
    destruct (Kx _ _ Er) as (out & O1 & O2). exists out. split; trivial. apply ec_more with a; trivial. exact (Re v1 x y a row Tr Fv Ex Ha Er out O2).
  - constructor.
  - destruct (Q1 (r / n)) as (Ag & Cd). destruct (put_away c (r / n)) as [[y|v1]|] eqn:Ep; [| |destruct Hp].
    + exists a, j. cbn in Ag. unfold SessionSpec.held_row, stored_row. rewrite Em2, Ea2, Nat2N.id, Ag. destruct Hp as (Hp & Lj). split; trivial. split; trivial.
    + destruct Hp as (Hp & Lj). destruct (Cd v1 eq_refl) as (Lv & x & y & Hy & Tr & Ex & Kx).
      destruct (nth_error x (N.to_nat (r mod n))) as [row|] eqn:Er; [|apply nth_error_None in Er; destruct Tr as (Lx & _); exfalso; clear - Er Lv Lx Ml; lia].
      destruct (Kx _ _ Er) as (out & O1 & O2). rewrite Ek in O1. exists out, (Datatypes.S j). split; trivial. split; trivial. apply ec_more with a; trivial.
      exact (Re v1 x y a row Tr (Gf _ _ Rn Po _ _ Ep) Ex Hp Er out O2).
Qed.

Lemma aged_spec K m i r : writable K -> stored K m -> (i < length (columns m))%nat -> r < K ->
  forall k K' m', aged i r K m k K' m' ->
  writable K' /\ stored K' m' /\ K <= K' /\ columns m' = columns m /\
  (k = 0%nat -> held_block m' i (r / n) = held_block m i (r / n)) /\
  forall v, held_row m i r = Some v -> exists v' j, held_row m' i r = Some v' /\ (j <= k)%nat /\ encoded i r j v v'.
Proof.
  intros W St Hi Hr k K' m' H. induction H as
    [|k K1 m1 m3 l S H IH Op Se Cl Np|k K1 m1 m3 l bs S H IH Op Se Cl Np|k K1 K2 m1 m3 D2 ks S H IH Op Lt Pk Se Cl Np|k K1 m1 m3 l bs S r' H IH Op Se Cl Er Pt Np|k K1 K2 m1 m3 D2 ks S H IH Op Lt Pk Se Cl Np].
  - split; trivial. split; trivial. split; [apply N.le_refl|]. split; trivial. split; trivial. intros v Hv. exists v, 0%nat. split; trivial. split; [apply Nat.le_refl|constructor].
  - destruct IH as (W1 & S1 & Le & Ec & Eb & Ev). destruct (rewritten_closed cfg T nt m0 D K1 L n na W1 m1 m3 l S S1 Op Se Cl) as (S2 & E2 & Q).
    assert (Hi1 : (i < length (columns m1))%nat) by (rewrite Ec; exact Hi). destruct (Q i Hi1) as (Q1 & _).
    split; trivial. split; trivial. split; trivial. split; [congruence|]. split.
    + intros Z. assert (k = 0%nat /\ puts_in n (calls_of cfg T nt l i) (r / n) = 0%nat) as (Z1 & Z2) by (clear - Z; lia). rewrite (Q1 (r / n) (puts_none n _ _ Z2)). auto.
    + intros v Hv. destruct (Ev v Hv) as (v1 & j & Hv1 & Lj & Ch).
      destruct (rewritten_row K1 m1 m3 l S i r v1 W1 S1 Op Se Cl Hi1 Np Hv1) as (v2 & j2 & H2 & L2 & C2).
      exists v2, (j + j2)%nat. split; trivial. split; [clear - Lj L2; lia|]. exact (encoded_more i r j j2 v v1 v2 Ch C2).
  - destruct IH as (W1 & S1 & Le & Ec & Eb & Ev). destruct (stored_closed cfg T nt m0 D K1 L n na W1 m1 m3 l bs S S1 Op Se Cl) as (S2 & E2 & Q).
    assert (Hi1 : (i < length (columns m1))%nat) by (rewrite Ec; exact Hi). destruct (Q i Hi1) as (Q1 & Q2 & _).
    split; trivial. split; trivial. split; trivial. split; [congruence|]. split; [intros Z; rewrite (Q1 _ Np); auto|].
    rewrite (Q2 r Np). exact Ev.
  - destruct IH as (W1 & S1 & Le & Ec & Eb & Ev). destruct (extended_closed cfg T nt m0 D K1 L n na W1 m1 m3 K2 D2 ks S S1 Op Lt Pk Se Cl) as (S2 & W2 & E2 & Q).
    assert (Hi1 : (i < length (columns m1))%nat) by (rewrite Ec; exact Hi). destruct (Q i Hi1) as (Q1 & Q2 & _).
    split; trivial. split; trivial. split; [clear - Le Lt; lia|]. split; [congruence|]. split; [intros Z; rewrite (Q1 _ Np); auto|].
    rewrite (Q2 r Np). exact Ev.
  - destruct IH as (W1 & S1 & Le & Ec & Eb & Ev). destruct (stored_closed cfg T nt m0 D K1 L n na W1 m1 m3 l bs S S1 Op Se Cl) as (S2 & E2 & Q).
    assert (Hi1 : (i < length (columns m1))%nat) by (rewrite Ec; exact Hi). destruct (Q i Hi1) as (_ & _ & Q3).
    split; trivial. split; trivial. split; trivial. split; [congruence|]. split; [discriminate|].
    intros v Hv. destruct (Ev v Hv) as (v1 & j & Hv1 & Lj & Ch). destruct (Q3 (r / n) r' Er Pt) as (x & y & Hy & En & Lx & Q4).
    pose proof (wr_positive K1 W1) as Zn.
    assert (Ek : r / n * n + N.of_nat (N.to_nat (r mod n)) = r) by (rewrite N2Nat.id; pose proof (N.div_mod r n); clear - Zn H0; lia).
    destruct (nth_error x (N.to_nat (r mod n))) as [row|] eqn:En1; [|apply nth_error_None in En1; pose proof (N.mod_lt r n); exfalso; clear - Zn En1 Lx H0; lia].
    destruct (Q4 _ row En1) as (A & B & out & O1 & O2). rewrite Ek in A, B, O1. exists out, (Datatypes.S j). split; trivial. split; [clear - Lj; lia|].
    apply ec_more with v1; trivial. exists x, y, row. split; [rewrite Lx; apply Nat.le_refl|]. split; trivial. split; trivial. split; trivial. split; trivial.
    unfold row_now in B. rewrite Np, Hv1 in B. congruence.
  - destruct IH as (W1 & S1 & Le & Ec & Eb & Ev). destruct (extended_closed cfg T nt m0 D K1 L n na W1 m1 m3 K2 D2 ks S S1 Op Lt Pk Se Cl) as (S2 & W2 & E2 & Q).
    assert (Hi1 : (i < length (columns m1))%nat) by (rewrite Ec; exact Hi). destruct (Q i Hi1) as (_ & _ & Q3).
    split; trivial. split; trivial. split; [clear - Le Lt; lia|]. split; [congruence|]. split; [discriminate|].
    intros v Hv. destruct (Ev v Hv) as (v1 & j & Hv1 & Lj & Ch). pose proof (wr_positive K1 W1) as Zn. pose proof (N.div_mod r n) as Dm. pose proof (N.mod_lt r n) as Ml.
    destruct (Q3 (r / n) Np) as (x & y & Hy & En & Lx & Some1 & _ & Q4); [clear - Dm Zn Hr Le Lt; lia|].
    assert (Ek : r / n * n + N.of_nat (N.to_nat (r mod n)) = r) by (rewrite N2Nat.id; clear - Zn Dm; lia).
    assert (Hr2 : r < K2) by (clear - Hr Le Lt; lia). specialize (Some1 r Hr2 eq_refl).
    destruct (nth_error x (N.to_nat (r mod n))) as [row|] eqn:En1; [|easy].
    destruct (Q4 _ row En1) as (A & B & out & O1 & O2). rewrite Ek in A, B, O1. exists out, (Datatypes.S j). split; trivial. split; [clear - Lj; lia|].
    apply ec_more with v1; trivial. exists x, y, row. split; trivial. split; trivial. split; trivial. split; trivial. split; trivial.
    assert (Hl : K1 <=? r = false) by (apply N.leb_gt; clear - Hr Le; lia). rewrite Hl, Hv1 in B. congruence.
Qed.
End history.

(** a row that is put in one session, and what later sessions make of it *)
Lemma put_aged cfg T nt m0 D L n na K m m3 l bs S i r d k K' m' : writable cfg T nt m0 D K L n na -> stored_table cfg T nt m0 D K m -> opened_from m m3 ->
  sys_updating cfg T nt (fun r => r < K) m3 l bs S -> all_closed S -> (i < length (columns m))%nat -> r < K -> last_put cfg T nt l i r = Some d ->
  aged cfg T nt n i r K (man cfg T nt S) k K' m' ->
  exists v' j, held_row cfg T nt m' i r = Some v' /\ (1 <= j <= Datatypes.S k)%nat /\ encoded cfg T nt L n na i r j (firstn (nPol_of (cfg i) * nChan_of (cfg i)) d) v'.
Proof.
  intros W St Op Se Cl Hi Hr Pt Ag. destruct (stored_closed cfg T nt m0 D K L n na W m m3 l bs S St Op Se Cl) as (S2 & E2 & Q). destruct (Q i Hi) as (_ & _ & Q3).
  assert (Pn : last_put cfg T nt l i r <> None) by (rewrite Pt; discriminate). destruct (Q3 (r / n) r eq_refl Pn) as (x & y & Hy & En & Lx & Q4).
  assert (Zr : n <> 0) by (pose proof (wr_positive cfg T nt m0 D L n na K W) as Z; clear - Z; lia). pose proof (N.div_mod r n Zr) as Dm. pose proof (N.mod_lt r n Zr) as Ml.
  assert (Ek : r / n * n + N.of_nat (N.to_nat (r mod n)) = r) by (rewrite N2Nat.id; clear - Dm; lia).
  destruct (nth_error x (N.to_nat (r mod n))) as [row|] eqn:Er; [|apply nth_error_None in Er; exfalso; clear - Ml Er Lx; lia].
  destruct (Q4 _ row Er) as (A & B & out & O1 & O2). rewrite Ek in A, B, O1.
  assert (Hi2 : (i < length (columns (man cfg T nt S)))%nat) by (rewrite E2; exact Hi).
  destruct (aged_spec cfg T nt m0 D L n na K (man cfg T nt S) i r W S2 Hi2 Hr k K' m' Ag) as (_ & _ & _ & _ & _ & Ev). destruct (Ev out O1) as (v' & j & H1 & H2 & H3).
  exists v', (1 + j)%nat. split; trivial. split; [clear - H2; lia|]. apply (encoded_more cfg T nt L n na i r 1 j _ out); trivial.
  apply (ec_more cfg T nt L n na i r 0 _ _ _ (ec_none cfg T nt L n na i r _)). exists x, y, row. split; [rewrite Lx; apply Nat.le_refl|]. split; trivial. split; trivial. split; trivial. split; trivial.
  unfold row_now in B. rewrite Pt in B. congruence.
Qed.

(** every row of a stored table has a value *)
Lemma stored_value cfg T nt m0 D L n na K m i r : writable cfg T nt m0 D K L n na -> stored_table cfg T nt m0 D K m -> (i < length (columns m))%nat -> r < K -> exists v, held_row cfg T nt m i r = Some v.
Proof.
  intros W St Hi Hr. destruct (stored_held cfg T nt m0 D K L n na W m St) as (N32 & Na32 & H). destruct (nth_error (columns m) i) as [col|] eqn:Hc; [|apply nth_error_None in Hc; exfalso; clear - Hi Hc; lia].
  destruct (held_good cfg T nt m0 D K L n na W m i col r H Hc Hr) as (y & D1 & D2). unfold held_row, stored_row, held_block. rewrite Hc.
  match goal with |- exists v, match ?d with _ => _ end = _ => replace d with (Some y) end.
  match goal with |- exists v, ?d = _ => destruct d as [v|]; [exists v; reflexivity|easy] end.
Qed.

Theorem history_encodings cfg T nt m0 D K L n na : writable cfg T nt m0 D K L n na ->
  forall m i r k K' m', stored_table cfg T nt m0 D K m -> (i < length (columns m))%nat -> r < K -> aged cfg T nt n i r K m k K' m' ->
  writable cfg T nt m0 D K' L n na /\ stored_table cfg T nt m0 D K' m' /\ K <= K' /\ columns m' = columns m /\
  exists v v' j, held_row cfg T nt m i r = Some v /\ held_row cfg T nt m' i r = Some v' /\ (j <= k)%nat /\ encoded cfg T nt L n na i r j v v'.
Proof.
  intros W m i r k K' m' St Hi Hr Ag. destruct (aged_spec cfg T nt m0 D L n na K m i r W St Hi Hr k K' m' Ag) as (W' & S' & Le & Ec & _ & Ev).
  destruct (stored_value cfg T nt m0 D L n na K m i r W St Hi Hr) as (v & Hv). destruct (Ev v Hv) as (v' & j & H1 & H2 & H3).
  split; trivial. split; trivial. split; trivial. split; trivial. exists v, v', j. auto.
Qed.

Theorem history_untouched cfg T nt m0 D K L n na : writable cfg T nt m0 D K L n na ->
  forall m i r K' m', stored_table cfg T nt m0 D K m -> (i < length (columns m))%nat -> r < K -> aged cfg T nt n i r K m 0 K' m' ->
  held_block cfg T nt m' i (r / n) = held_block cfg T nt m i (r / n) /\ exists v, held_row cfg T nt m i r = Some v /\ held_row cfg T nt m' i r = Some v.
Proof.
  intros W m i r K' m' St Hi Hr Ag. destruct (aged_spec cfg T nt m0 D L n na K m i r W St Hi Hr 0%nat K' m' Ag) as (W' & S' & Le & Ec & Eb & _). specialize (Eb eq_refl). split; trivial.
  destruct (stored_value cfg T nt m0 D L n na K m i r W St Hi Hr) as (v & Hv). exists v. split; trivial.
  rewrite (same_row cfg T nt n na m m' i r (stored_settings cfg T nt m0 D L n na K m W St) (stored_settings cfg T nt m0 D L n na K' m' W' S') Eb). exact Hv.
Qed.
