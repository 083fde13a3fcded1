(** Copying a table does not change the weights.  Proof file. *)
From Coq Require Import Reals Lra String.
From Flocq Require Import Core.
From Verif Require Import Base BaseLemmas Floats TimeBlockBuffer BitStream BytePacker File StMan StManSpec Weights WeightSpec WeightProofs Block BlockSpec BlockEnc BlockGood StochasticEncoder TimeBlockEncoders Column ColumnSpec ColumnOrder
  StoredColumn StoredProofs System SystemSpec UpdateSpec SessionSpec SystemInv SystemWrite SystemAll SystemHeld SystemSessions Production Copy CopySpec SystemCopy UpdateBlock BytePackerTop WeightMoreProofs WeightBlockProofs.
From Coq Require Import ZifyNat ZifyN.
Local Open Scope nat_scope.
Local Arguments System.colenv : simpl never.

Section block.
Context (p ch : nat) (bits : N) (T : table) (nt : nat) (Sb : supported bits) (Hp : 1 <= p).
Notation E := (weight_column bits p ch T nt).
Notation q := (2 ^ Z.of_N bits)%Z.

Lemma quant_range : (2 <= q <= 65536)%Z.
Proof. destruct (supported_cases bits Sb) as [-> |[-> |[-> |[-> |[-> |[-> |[-> | ->]]]]]]]; vm_compute; split; discriminate. Qed.

Lemma exact_only (D : N -> list f32) k n b (x : tbb f32) : (n <> 0 -> b * n < k -> exact_block E D k n b x -> only_put E D n b x)%N.
Proof. intros Zn Hb (H & Lx). apply (short_only_put E D k n b x Zn H). change (list (drow f32)) with (tbb f32) in *. rewrite Lx. lia. Qed.

Lemma weights_of (D : N -> list f32) k n b (x : tbb f32) : (n <> 0)%N -> (b * n < k)%N -> (forall r, Forall nonneg (D r)) -> exact_block E D k n b x ->
  regular p ch (map (@visibilities f32) x) /\ Forall (Forall nonneg) (map (@visibilities f32) x) /\ (forall i row, nth_error x i = Some row -> visibilities row = firstn (p * ch) (D (b * n + N.of_nat i)%N)).
Proof.
  intros Zn Hb Hn X. pose proof (exact_only D k n b x Zn Hb X) as Px. pose proof (block_rows _ _ _ _ _ _ (proj1 X)) as Ro. split; [|split; [|exact Px]].
  - split; trivial. apply Forall_forall. intros v Hv. apply in_map_iff in Hv as (rw & <- & Hi). etransitivity; [exact (Ro rw Hi)|]. apply Nat.mul_comm.
  - apply Forall_forall. intros v Hv. apply in_map_iff in Hv as (rw & <- & Hi). apply In_nth_error in Hi as (i & Hi). pose proof (Px i rw Hi) as Pi. change (visibilities rw = firstn (p * ch) (D (b * n + N.of_nat i)%N)) in Pi. rewrite Pi.
    apply Forall_forall. intros z Hz. pose proof (Hn (b * n + N.of_nat i)%N) as Q. rewrite Forall_forall in Q. apply Q.
    rewrite <- (firstn_skipn (p * ch) (D (b * n + N.of_nat i)%N)). apply in_or_app. now left.
Qed.

(** what a block holds is what the weight encoder itself decodes *)
Lemma weight_decoded n na b (x : tbb f32) y : regular p ch (map (@visibilities f32) x) -> Forall (Forall nonneg) (map (@visibilities f32) x) -> enc E n na x y ->
  exists m ss, EncodeWeights p ch q (map (@visibilities f32) x) = Ok (m, ss) /\ largest_weight p ch (map (@visibilities f32) x) m /\
    forall r, r < length x -> exists out, nth_error (dec E n na b y) r = Some out /\ DecodeWeights p ch q m ss r = Ok out.
Proof.
  intros Re Nn (Lx & g & packed & sym & bufs & Tb & Ey). pose proof (le_rows _ _ Lx) as Lx'. destruct g.
  destruct (weights_roundtrip p ch q (map (@visibilities f32) x) Re Nn quant_range) as (m & ss & Em & _ & _ & Fm & Pm & _ & HL). exists m, ss. split; trivial. split; [split; [exact Fm|split; [exact Pm|exact HL]]|].
  destruct (weight_block p ch bits (N.to_nat n) na (block_ants T n b) x packed sym Sb Re Nn Lx' Tb) as (y' & pa & sy & Ey' & _ & _ & _ & _ & RD).
  assert (y' = y) by (rewrite Ey in Ey'; congruence). subst y'.
  destruct (RD (repeat 0%N (nSymbols (weight_codec p ch bits) (N.to_nat n))) (repeat_length _ _)) as (rows & Er & _ & H).
  intros r Hr. destruct (H r Hr) as (out & Ho & Hd). exists out. split; [cbn [dec weight_column stored_column]; now rewrite Er|].
  unfold weights_readback in Hd. rewrite Em in Hd. exact Hd.
Qed.

Lemma largest_normal (l : list row) m : largest_weight p ch l m -> regular p ch l -> (forall v, In v l -> Forall (fun w => B2R w = 0%R \/ (bpow radix2 (-126) <= B2R w)%R) v) -> (bpow radix2 (-126) <= B2R m)%R.
Proof.
  intros (Fm & Pm & [(r & rw & c & Hr & Hc & (Hin & _))|(-> & _)]) Re Hn.
  - specialize (Hn rw (nth_error_In _ _ Hr)). rewrite Forall_forall in Hn. destruct (Hn m) as [Z|Z]; trivial; [|lra].
    unfold pols in Hin. apply In_nth_error in Hin as (k & Hk).
    assert (Hs : nth_error (skipn (c * p) rw) k = Some m).
    { rewrite <- (firstn_skipn p (skipn (c * p) rw)). rewrite nth_error_app1; trivial. apply nth_error_Some. congruence. }
    rewrite <- (firstn_skipn (c * p) rw). apply in_or_app. right. eapply nth_error_In; eauto.
  - change 1%R with (bpow radix2 0). apply bpow_le. lia.
Qed.

Theorem weight_stable (D D' : N -> list f32) k n na b (x x' : tbb f32) y y' : (n <> 0)%N -> (b * n < k)%N -> (forall r, Forall nonneg (D r)) -> (forall r, Forall nonneg (D' r)) ->
  (forall r, Forall (fun w => B2R w = 0%R \/ (bpow radix2 (-126) <= B2R w)%R) (D r)) ->
  exact_block E D k n b x -> exact_block E D' k n b x' -> enc E n na x y -> enc E n na x' y' ->
  (forall i, i < length x -> nth_error (dec E n na b y) i = Some (D' (b * n + N.of_nat i)%N)) ->
  forall i, i < length x -> nth_error (dec E n na b y') i = nth_error (dec E n na b y) i.
Proof.
  intros Zn Hb N1 N2 Sn X X' Y Y' Hd. destruct (weights_of D k n b x Zn Hb N1 X) as (R1 & F1 & P1). destruct (weights_of D' k n b x' Zn Hb N2 X') as (R2 & F2 & P2).
  destruct (weight_decoded n na b x y R1 F1 Y) as (m & ss & E1 & Lm & Dc). destruct (weight_decoded n na b x' y' R2 F2 Y') as (m' & ss' & E2 & _ & Dc').
  assert (Ll : length x' = length x) by (destruct X as (_ & A), X' as (_ & B); apply Nat2N.inj; exact (eq_trans B (eq_sym A))).
  assert (M : mapM (DecodeWeights p ch q m ss) (seq 0 (length (map (@visibilities f32) x))) = Ok (map (@visibilities f32) x')).
  { rewrite map_length, <- Ll.
    assert (G : forall l k0, (forall j row, nth_error l j = Some row -> DecodeWeights p ch q m ss (k0 + j) = Ok (@visibilities f32 row)) -> mapM (DecodeWeights p ch q m ss) (seq k0 (length l)) = Ok (map (@visibilities f32) l)).
    { clear. induction l as [|a l IH]; intros k0 H; trivial. cbn [length seq mapM map]. pose proof (H 0 a eq_refl) as H0. rewrite Nat.add_0_r in H0. rewrite H0. cbn [bind]. rewrite IH; trivial.
      intros j row Hj. rewrite Nat.add_succ_l, <- Nat.add_succ_r. now apply H. }
    apply G. intros j row Hj. cbn [Nat.add]. assert (Hl : j < length x) by (rewrite <- Ll; apply nth_error_Some; congruence).
    destruct (Dc j Hl) as (out & Ho & ->). rewrite (Hd j Hl) in Ho. injection Ho as <-. f_equal. rewrite (P2 j row Hj). symmetry. apply firstn_all2.
    assert (Q : nth_error (dec E n na b y) j = Some (D' (b * n + N.of_nat j)%N)) by now apply Hd.
    destruct (Dc j Hl) as (o2 & Ho2 & Hw). rewrite Q in Ho2. injection Ho2 as <-. apply Nat.eq_le_incl. exact (proj1 (decode_weights_each p ch q m ss j _ (fun _ => True) Hw (fun _ _ => I))). }
  pose proof (weights_again p ch q (map (@visibilities f32) x) m ss (map (@visibilities f32) x') R1 F1 quant_range E1) as Ag.
  rewrite Ag in E2; trivial.
  - injection E2 as <- <-. intros i Hi. destruct (Dc i Hi) as (o1 & -> & H1). destruct (Dc' i) as (o2 & -> & H2); [rewrite Ll; exact Hi|]. congruence.
  - apply (largest_normal (map (@visibilities f32) x) m Lm R1). intros v Hv. apply in_map_iff in Hv as (rw & <- & Hi). apply In_nth_error in Hi as (j & Hj). rewrite (P1 j rw Hj).
    apply Forall_forall. intros z Hz. pose proof (Sn (b * n + N.of_nat j)%N) as Q. rewrite Forall_forall in Q. apply Q. rewrite <- (firstn_skipn (p * ch) (D (b * n + N.of_nat j)%N)). apply in_or_app. now left.
Qed.
End block.

Section any.
Context (T : table) (nt : nat) (c : coldef) (L : f32).
Notation E := (stored_column (codec_of c) (af_of c) (bits_of c) (nPol_of c * nChan_of c) T nt).

Lemma stable_any (D D' : N -> list (data E)) k n na b (x x' : tbb (data E)) y y' : (n <> 0)%N -> (b * n < k)%N -> 0 < nPol_of c -> coldef_ok c L -> data_ok c D -> data_ok c D' -> normal_weights c D ->
  exact_block E D k n b x -> exact_block E D' k n b x' -> enc E n na x y -> enc E n na x' y' ->
  (forall i, i < length x -> nth_error (dec E n na b y) i = Some (D' (b * n + N.of_nat i)%N)) ->
  forall i, i < length x -> nth_error (dec E n na b y') i = nth_error (dec E n na b y) i.
Proof.
  destruct c as [e p ch bi|e p ch bi|e p ch bi|p ch bi]; cbn [normal_weights]; try (intros; contradiction).
  intros Zn Hb Hp Co Da Da' Nw X X' Y Y' Hd. exact (weight_stable p ch bi T nt Co Hp D D' k n na b x x' y y' Zn Hb Da Da' Nw X X' Y Y' Hd).
Qed.
End any.

Section copy.
Local Open Scope N_scope.
Context (cfg : nat -> coldef) (T : table) (nt : nat) (m0 : stman) (D : forall i, N -> list (data (colenv cfg T nt i))) (K : N) (L : nat -> f32) (n : N) (na : nat).
Context (W : writable cfg T nt m0 D K L n na).
Notation man := (man cfg T nt).

Theorem copy_weights ks S m' D' : sys_order cfg T nt m0 D K ks S -> all_closed S -> Forall2 same_column (columns m0) (columns m') ->
  (forall i r, (i < List.length (columns m0))%nat -> r < K -> held_row cfg T nt (man S) i r = Some (D' i r)) -> writable cfg T nt m' D' K L n na ->
  forall ks' S', sys_order cfg T nt m' D' K ks' S' -> all_closed S' ->
  forall i r, (i < List.length (columns m0))%nat -> r < K -> normal_weights (cfg i) (D i) -> held_row cfg T nt (man S') i r = held_row cfg T nt (man S) i r.
Proof.
  intros Or Cl Sc Hd W' ks' S' Or' Cl' i r Hi Hr Nw. assert (Hi' : (i < List.length (columns m'))%nat) by (rewrite (shape_length _ _ Sc); exact Hi).
  pose proof (block_below cfg T nt m0 D K L n na W r Hr) as Hb. assert (Zn : 0 < n) by apply (wr_first _ _ _ _ _ _ _ _ _ W).
  destruct (written_blocks cfg T nt m0 D K L n na W ks S Or Cl i (r / n) Hi Hb) as (x & y & H1 & H2 & H3 & P1 & _).
  destruct (written_blocks cfg T nt m' D' K L n na W' ks' S' Or' Cl' i (r / n) Hi' Hb) as (x' & y' & H1' & H2' & H3' & _).
  rewrite (held_row_is cfg T nt m0 D K L n na W ks S i r y Or Cl H1), (held_row_is cfg T nt m' D' K L n na W' ks' S' i r y' Or' Cl' H1').
  pose proof (proj2 H2) as Lx. pose proof (N.div_mod r n ltac:(clear - Zn; lia)) as Em. pose proof (N.mod_upper_bound r n ltac:(clear - Zn; lia)) as Hm.
  apply (stable_any T nt (cfg i) (L i) (D i) (D' i) K n na (r / n) x x' y y' ltac:(clear - Zn; lia) Hb P1 (wr_columns _ _ _ _ _ _ _ _ _ W i) (wr_data _ _ _ _ _ _ _ _ _ W i) (wr_data _ _ _ _ _ _ _ _ _ W' i) Nw H2 H2' H3 H3').
  - intros j Hj. change (j < @List.length (drow (data (colenv cfg T nt i))) x)%nat in Hj. assert (Q0 : N.of_nat j < N.min n (K - r / n * n)) by (rewrite <- Lx; clear - Hj; unfold tbb in *; lia). assert (Hj2 : N.of_nat j < n /\ r / n * n + N.of_nat j < K) by (clear - Q0 Hb; lia). destruct Hj2 as (J1 & J2).
    assert (Q1 : (r / n * n + N.of_nat j) / n = r / n) by (symmetry; apply (N.div_unique _ _ _ (N.of_nat j)); [exact J1|clear; lia]).
    assert (Q2 : (r / n * n + N.of_nat j) mod n = N.of_nat j) by (symmetry; apply (N.mod_unique _ _ (r / n)); [exact J1|clear; lia]).
    refine (eq_trans _ (Hd i _ Hi J2)). rewrite (held_row_is cfg T nt m0 D K L n na W ks S i (r / n * n + N.of_nat j) y Or Cl); rewrite Q1; trivial. rewrite Q2, Nat2N.id. reflexivity.
  - change (N.to_nat (r mod n) < @List.length (drow (data (colenv cfg T nt i))) x)%nat. assert (Q : N.of_nat (N.to_nat (r mod n)) < N.of_nat (List.length x)) by (rewrite Lx, N2Nat.id; clear - Em Hm Hr Hb; rewrite N.mul_comm in Em; lia). clear - Q. unfold tbb in *. lia.
Qed.
End copy.
