(** Copying a stored table.  Proof file. *)
From Coq Require Import String Ascii.
From Verif Require Import Base BaseLemmas Floats TimeBlockBuffer BytePacker File StMan StManSpec SpecRecord SpecProofs StManProofs.
From Verif Require Import StochasticEncoder TimeBlockEncoders Weights WeightSpec Block BlockSpec Column ColumnSpec ColumnOrder
  StoredColumn System SystemSpec UpdateSpec SessionSpec SystemCols SystemInv SystemOrder SystemEnd SystemGood SystemWrite SystemPuts SystemFinal SystemAll UpdateBlock SystemHeld SystemSessions Production Copy CopySpec.
From Coq Require Import ZifyNat ZifyN.
Local Open Scope N_scope.
Local Arguments System.colenv : simpl never.

(** ** The manager *)
Lemma copied_settings m : 0 < dataBitCount m < 2 ^ 32 -> 0 < weightBitCount m < 2 ^ 32 -> distribution m < 4 -> distribution m <> 2 -> normalization m < 3 ->
  exists s, settings_of m = Some s /\ setFromSpec default_settings (dataManagerSpec s) = Ok s /\ from_settings (name m) s =
    StMan 0 0 0 0 0 0 empty_file (name m) (dataBitCount m) (weightBitCount m) (distribution m) (normalization m) (studentTNu m) (truncation m) [].
Proof.
  intros Hd Hw D4 D2 N3. unfold settings_of, dist_of, norm_of.
  assert (D : distribution m = 0 \/ distribution m = 1 \/ distribution m = 3) by lia. assert (N : normalization m = 0 \/ normalization m = 1 \/ normalization m = 2) by lia.
  assert (Q : forall d n, let s := Settings (dataBitCount m) (weightBitCount m) d n (studentTNu m) (truncation m) in d <> StudentsT -> setFromSpec default_settings (dataManagerSpec s) = Ok s).
  { intros d n s Hs. apply SpecProofs.spec_roundtrip; trivial. }
  destruct D as [-> |[-> | ->]], N as [-> |[-> | ->]]; cbn [N.eqb Pos.eqb]; eexists; (split; [reflexivity|]; split; [apply Q; discriminate|reflexivity]).
Qed.

Lemma copied_student m nrow : distribution m = 2 -> copyMan nrow m = Throw.
Proof.
  intros D. unfold copyMan, settings_of. rewrite D. cbn [dist_of N.eqb Pos.eqb]. destruct (norm_of _) as [n|]; trivial.
  rewrite SpecProofs.spec_studentst; reflexivity.
Qed.

Lemma copied_manager cfg m0 m3 nrow : new_table cfg m0 -> known_settings m0 -> distribution m0 <> 2 -> same_options m0 m3 -> Forall2 same_shape (columns m0) (columns m3) ->
  exists m', copyMan nrow m3 = Ok m' /\ same_options m0 m' /\ Forall2 same_column (columns m0) (columns m') /\ new_table cfg m' /\ antennaCount m' = 0.
Proof.
  intros New (D4 & N3 & Fk) D2 So Sh. pose proof So as (E1 & E2 & E3 & E4 & E5 & E6 & E7). pose proof (nw_storable _ _ New) as St. 
  assert (Pos : forall x, x <> 0 -> x < 256 -> 0 < x < 2 ^ 32) by (clear; intros; lia).
  destruct (copied_settings m3) as (s & Es & Er & Ef).
  { rewrite E2. exact (Pos _ (nw_dbits _ _ New) (st_dbits _ St)). }
  { rewrite E3. exact (Pos _ (nw_wbits _ _ New) (st_wbits _ St)). }
  { now rewrite E4. } { now rewrite E4. } { now rewrite E5. }
  unfold copyMan. rewrite Es, Er. cbn [bind]. rewrite Ef. set (m' := createMan nrow _). unfold prepareMan.
  change (dataBitCount (set_columns m' (map (copy_column m') (columns m3)))) with (dataBitCount m3). change (weightBitCount (set_columns m' (map (copy_column m') (columns m3)))) with (weightBitCount m3).
  rewrite E2, E3, (proj2 (N.eqb_neq _ _) (nw_dbits _ _ New)), (proj2 (N.eqb_neq _ _) (nw_wbits _ _ New)). cbn [orb].
  change (areOffsetsInitialized _) with false. cbn [negb]. cbv zeta. eexists. split; [reflexivity|].
  set (m1 := set_columns _ _). assert (So' : same_options m0 m1) by (repeat split; trivial).
  assert (Ec : columns m1 = map (fun c => set_bits m' (copy_column m' c)) (columns m3)) by (cbn; now rewrite map_map).
  assert (Sc : Forall2 same_column (columns m0) (columns m1)).
  { rewrite Ec. rewrite (nw_set _ _ New) in Sh |- *. revert Fk Sh. generalize (columns m0) (columns m3). clear - E2 E3 E5. intros l l' Fk Sh.
    remember (map (set_bits m0) l) as l0 eqn:El. revert l El Fk. induction Sh as [|c c' cs cs' Hc _ IH]; intros l El Fk; [constructor|]. destruct l as [|c0 l]; [discriminate|].
    cbn [map] in El. injection El as -> ->. inversion Fk as [|? ? K1 K2]; subst. cbn [map]. constructor; [|now apply (IH l)].
    destruct Hc as (Q1 & Q2 & Q3 & Q4). unfold same_column, set_bits, copy_column. cbn [co_kind co_nPol co_nChan co_bits] in *. rewrite Q1, Q2, Q3.
    change (dataBitCount m') with (dataBitCount m3). change (weightBitCount m') with (weightBitCount m3). assert (Dk : data_kind m' = data_kind m0) by (unfold data_kind; change (normalization m') with (normalization m3); now rewrite E5).
    rewrite Dk, E2, E3. change (co_kind (set_bits m0 c0)) with (co_kind c0). destruct K1 as [-> | ->]; [repeat split|]. unfold data_kind. destruct (normalization m0 =? 0), (normalization m0 =? 1); repeat split. }
  assert (Lc : List.length (columns m1) = List.length (columns m0)) by (clear - Sc; induction Sc; cbn; congruence).
  split; [exact So'|]. split; [exact Sc|]. split; [|reflexivity]. destruct So' as (F1 & F2 & F3 & F4 & F5 & F6 & F7).
  constructor; try reflexivity; trivial.
  - apply N.le_0_l.
  - constructor; try reflexivity; rewrite ?F1, ?F2, ?F3, ?F4, ?F5, ?F6, ?F7, ?Lc; try apply St.
    rewrite Ec. apply Forall_forall. intros c Hc. apply in_map_iff in Hc as (c0 & <- & _). split; reflexivity.
  - rewrite F2. apply (nw_dbits _ _ New).
  - rewrite F3. apply (nw_wbits _ _ New).
  - intros Q. rewrite Q in Lc. apply (nw_columns _ _ New). destruct (columns m0); [reflexivity|discriminate].
  - rewrite Ec, map_map. apply map_ext. reflexivity.
  - intros i col Hc. destruct (shape_nth _ _ Sc i col Hc) as (c & Hc0 & S1). destruct (nw_described _ _ New i c Hc0) as (A & B). split; trivial. eapply shape_describes; eauto.
Qed.

(** ** The rows *)
Section rows.
Context (cfg : nat -> coldef) (T : table) (nt : nat) (m0 : stman) (D : forall i, N -> list (data (colenv cfg T nt i))) (K : N) (L : nat -> f32) (n : N) (na : nat).
Context (W : writable cfg T nt m0 D K L n na).

Definition read_rows (m : stman) (i : nat) (r : N) : list (data (colenv cfg T nt i)) :=
  match held_row cfg T nt m i r with Some v => v | None => D i r end.

Lemma held_row_sound m i r v : held cfg T nt m0 K n na m -> held_row cfg T nt m i r = Some v -> List.length v = (nPol_of (cfg i) * nChan_of (cfg i))%nat /\ row_ok (cfg i) v.
Proof.
  intros H. unfold held_row, stored_row, held_block. destruct (nth_error (columns m) i) as [col|] eqn:Hc; [|discriminate].
  rewrite (hd_rows _ _ _ _ _ _ _ _ H), (hd_ants _ _ _ _ _ _ _ _ H), Nat2N.id. destruct (N.lt_ge_cases (r / n) (nBlocksInFile m)) as [Hb|Hb].
  - destruct (held_disk cfg T nt m0 K n na m i col (r / n) H Hc Hb) as (y & -> & _ & Sy). intros E. destruct (Sy (r / n)) as (_ & F). rewrite Forall_forall in F. apply F. eapply nth_error_In; eauto.
  - unfold disk. rewrite (proj2 (N.ltb_ge _ _) Hb). discriminate.
Qed.

Theorem copy_writable m m3 nrow : stored_table cfg T nt m0 D K m -> opened_from m m3 -> known_settings m0 -> distribution m0 <> 2 ->
  exists m' D', copyMan nrow m3 = Ok m' /\ same_options m0 m' /\ Forall2 same_column (columns m0) (columns m') /\
    (forall i r, (i < List.length (columns m0))%nat -> r < K -> held_row cfg T nt m i r = Some (D' i r)) /\
    writable cfg T nt m' D' K L n na.
Proof.
  intros Sd Op Ks D2. destruct (stored_held cfg T nt m0 D K L n na W m Sd) as (N32 & Na32 & H).
  destruct (held_from cfg T nt m0 D K L n na W m m3 N32 Na32 H Op) as (H3 & Q1 & Q2 & Q3 & Q4).
  destruct (same_held cfg T nt m0 K n na m m3 H H3 Q1 Q2 Q4) as (_ & X2).
  destruct (held_shape cfg T nt m0 K n na (wr_new _ _ _ _ _ _ _ _ _ W) (proj1 (wr_first _ _ _ _ _ _ _ _ _ W)) N32 Na32 (wr_size _ _ _ _ _ _ _ _ _ W) m3 H3) as (_ & _ & _ & Lc & Sh).
  destruct (copied_manager cfg m0 m3 nrow (wr_new _ _ _ _ _ _ _ _ _ W) Ks D2 Q3 Sh) as (m' & Em & So & Sc & New & _).
  exists m', (read_rows m). split; trivial. split; trivial. split; trivial. split.
  { intros i r Hi Hr. destruct (held_rows cfg T nt m0 D K L n na W m i r H) as (v & Ev); trivial; [rewrite <- Q1, Lc; exact Hi|]. unfold read_rows. now rewrite Ev. }
  assert (Ok : forall i r, (nPol_of (cfg i) * nChan_of (cfg i) <= List.length (read_rows m i r))%nat).
  { intros i r. unfold read_rows. destruct (held_row cfg T nt m i r) as [v|] eqn:Ev; [|apply (wr_rows _ _ _ _ _ _ _ _ _ W)]. destruct (held_row_sound m i r v H Ev) as (-> & _). reflexivity. }
  constructor; trivial; try apply W.
  - intros i. generalize (wr_data _ _ _ _ _ _ _ _ _ W i). assert (Z : forall r v, held_row cfg T nt m i r = Some v -> row_ok (cfg i) v) by (intros r v E; exact (proj2 (held_row_sound m i r v H E))).
    revert Z. unfold read_rows. generalize (held_row cfg T nt m i) (D i). unfold data_ok, row_ok, colenv. destruct (cfg i); trivial. intros f g Z G r. specialize (Z r). destruct (f r); [now apply Z|apply G].
  - destruct So as (-> & _). apply W.
  - intros i Hi. apply (wr_af _ _ _ _ _ _ _ _ _ W). rewrite <- (shape_length _ _ Sc). exact Hi.
  - rewrite (shape_total _ _ _ _ Sc). apply W.
Qed.
End rows.

(** ** What a table that was written holds *)
Section written.
Context (cfg : nat -> coldef) (T : table) (nt : nat) (m0 : stman) (D : forall i, N -> list (data (colenv cfg T nt i))) (K : N) (L : nat -> f32) (n : N) (na : nat).
Context (W : writable cfg T nt m0 D K L n na).
Notation man := (man cfg T nt). Notation colenv := (colenv cfg T nt).

Theorem written_blocks ks S : sys_order cfg T nt m0 D K ks S -> all_closed S -> forall i b, (i < List.length (columns m0))%nat -> b * n < K ->
  exists x y, held_block cfg T nt (man S) i b = Some y /\ exact_block (colenv i) (D i) K n b x /\ enc (colenv i) n na x y /\ (0 < nPol_of (cfg i))%nat /\ (0 < nChan_of (cfg i))%nat.
Proof.
  destruct W as [NT HA0 HD New Co Da Ln Fn An Nm Af Tot]. pose proof (allA_below T HA0) as HA. change (forall i r, (nSamp (colenv i) <= List.length (D i r))%nat) in HD.
  intros Or Cl i b Hi Hb. destruct (order_well cfg T nt allA NT HA allA_32 m0 D K L HD New Co n na Ln Fn An Nm Af Tot ks S Or) as (R & Ft & B8).
  destruct (all_so cfg T nt m0 D K L n na W ks S Or) as (I & _). pose proof (o_si _ _ _ _ _ _ _ _ _ I) as Is.
  pose proof (end_blocks cfg T nt allA NT HA allA_32 m0 D K HD New ks S n na Or R Ft Cl Ln Fn An) as Eb.
  pose proof (end_block cfg T nt allA NT HA allA_32 m0 D K HD New ks S n na Or R Ft Cl Ln Fn An) as Ey.
  pose proof (all_ncol cfg T nt m0 D K L n na W ks S Or) as Nc. assert (Hi' : (i < System.ncol cfg T nt S)%nat) by (rewrite Nc; exact Hi).
  destruct (nth_error (columns (man S)) i) as [col|] eqn:Hc; [|apply nth_error_None in Hc; unfold System.ncol in Hi'; clear - Hc Hi'; lia].
  destruct (Ey i b Hi' Hb) as (_ & _ & y & x & _ & Fy & Eny & Xb).
  destruct (s_file _ _ _ _ _ _ Is i col b y Hc Fy) as (_ & _ & Rd).
  destruct (si_described cfg T nt allA _ S i col Is (nw_described _ _ New) Hc) as (_ & P1 & P2).
  exists x, y. split; [|split; [exact Xb|split; [exact Eny|split; [exact P1|exact P2]]]].
  unfold held_block. rewrite Hc. unfold disk. assert (Q : b < nBlocksInFile (man S)) by now apply Eb. apply N.ltb_lt in Q. rewrite Q, Rd. reflexivity.
Qed.

Lemma held_row_is ks S i r y : sys_order cfg T nt m0 D K ks S -> all_closed S -> held_block cfg T nt (man S) i (r / n) = Some y ->
  held_row cfg T nt (man S) i r = nth_error (dec (colenv i) n na (r / n) y) (N.to_nat (r mod n)).
Proof.
  intros Or Cl Hd. destruct (written_held cfg T nt m0 D K L n na W ks S Or Cl) as (N32 & Na32 & H).
  unfold held_row, stored_row. rewrite (hd_rows _ _ _ _ _ _ _ _ H), (hd_ants _ _ _ _ _ _ _ _ H), Nat2N.id, Hd. reflexivity.
Qed.

Lemma block_below r : r < K -> r / n * n < K.
Proof. intros Hr. assert (Zn : 0 < n) by apply (wr_first _ _ _ _ _ _ _ _ _ W). pose proof (N.mul_div_le r n ltac:(clear - Zn; lia)) as Q. clear - Q Hr. lia. Qed.

Theorem written_rows ks S : sys_order cfg T nt m0 D K ks S -> all_closed S -> forall i r, (i < List.length (columns m0))%nat -> r < K ->
  exists out x y, held_row cfg T nt (man S) i r = Some out /\ held_block cfg T nt (man S) i (r / n) = Some y /\ exact_block (colenv i) (D i) K n (r / n) x /\
    kept (cfg i) (L i) na x (floats (nMetaFloats (codec_of (cfg i)) (N.to_nat n) na) y)
      (DRow (fst (t_ants T r)) (snd (t_ants T r)) (firstn (nPol_of (cfg i) * nChan_of (cfg i)) (D i r))) out.
Proof.
  intros Or Cl i r Hi Hr. destruct (written_blocks ks S Or Cl i (r / n) Hi (block_below r Hr)) as (x & y & Hd & Xb & Eny & P1 & P2).
  destruct (written_held cfg T nt m0 D K L n na W ks S Or Cl) as (N32 & _). assert (Zn : 0 < n) by apply (wr_first _ _ _ _ _ _ _ _ _ W).
  destruct (kept_row T nt (cfg i) (L i) (D i) K n na x y r (wr_columns _ _ _ _ _ _ _ _ _ W i) (wr_data _ _ _ _ _ _ _ _ _ W i) P1 P2 ltac:(clear - Zn; lia) ltac:(clear - N32; lia) Hr (wr_af _ _ _ _ _ _ _ _ _ W i Hi) Xb Eny) as (out & Ho & Hk).
  exists out, x, y. split; [|split; [exact Hd|split; [exact Xb|exact Hk]]]. rewrite (held_row_is ks S i r y Or Cl Hd). exact Ho.
Qed.
End written.

(** ** The copy *)
Section copy.
Context (cfg : nat -> coldef) (T : table) (nt : nat) (m0 : stman) (D : forall i, N -> list (data (colenv cfg T nt i))) (K : N) (L : nat -> f32) (n : N) (na : nat).
Context (W : writable cfg T nt m0 D K L n na).
Notation man := (man cfg T nt). Notation colenv := (colenv cfg T nt).

Theorem copied m m3 nrow : stored_table cfg T nt m0 D K m -> opened_from m m3 -> known_settings m0 -> distribution m0 <> 2 ->
  exists m' D', copyMan nrow m3 = Ok m' /\ same_options m0 m' /\ Forall2 same_column (columns m0) (columns m') /\
    (forall i r, (i < List.length (columns m0))%nat -> r < K -> held_row cfg T nt m i r = Some (D' i r)) /\
    forall ks S, sys_order cfg T nt m' D' K ks S ->
      running cfg T nt S /\ sfinishes S /\ (K <= 2 ^ 32 -> exists ks' S', sreach cfg T nt S S' /\ sys_order cfg T nt m' D' K ks' S' /\ all_closed S') /\
      (all_closed S -> (forall mo nr, reopens (man S) mo -> exists m2 m4, openMan nr mo = Ok m2 /\ prepareMan m2 = Ok m4 /\ same_options m0 m4) /\
        forall i r, (i < List.length (columns m0))%nat -> r < K ->
        exists d out x y, held_row cfg T nt m i r = Some d /\ held_row cfg T nt (man S) i r = Some out /\ held_block cfg T nt (man S) i (r / n) = Some y /\
          exact_block (colenv i) (D' i) K n (r / n) x /\
          kept (cfg i) (L i) na x (floats (nMetaFloats (codec_of (cfg i)) (N.to_nat n) na) y) (DRow (fst (t_ants T r)) (snd (t_ants T r)) d) out).
Proof.
  intros Sd Op Ks D2. destruct (copy_writable cfg T nt m0 D K L n na W m m3 nrow Sd Op Ks D2) as (m' & D' & Em & So & Sc & Hd & W').
  destruct (stored_held cfg T nt m0 D K L n na W m Sd) as (_ & _ & H).
  exists m', D'. split; trivial. split; trivial. split; trivial. split; trivial. intros ks S Or.
  split; [exact (proj1 (never_fails cfg T nt m' D' K L n na W' ks S Or))|]. split; [exact (writing_finishes cfg T nt m' D' K L n na W' ks S Or)|].
  split; [intros K32; exact (can_be_closed cfg T nt m' D' K L n na W' K32 ks S Or)|]. intros Cl. split.
  - intros mo nr Ro. destruct (stored_opens cfg T nt m' D' K L n na W' (man S) mo nr (sd_written cfg T nt m' D' K ks S Or Cl) Ro) as (m2 & m4 & O & P & _ & _ & _ & So' & _).
    exists m2, m4. split; trivial. split; trivial. destruct So as (A1 & A2 & A3 & A4 & A5 & A6 & A7), So' as (B1 & B2 & B3 & B4 & B5 & B6 & B7). repeat split; congruence.
  - intros i r Hi Hr. destruct (written_rows cfg T nt m' D' K L n na W' ks S Or Cl i r) as (out & x & y & H1 & H2 & H3 & H4); trivial; [rewrite (shape_length _ _ Sc); exact Hi|].
    exists (D' i r), out, x, y. split; [now apply Hd|]. split; trivial. split; trivial. split; trivial.
    destruct (held_row_sound cfg T nt m0 K n na m i r (D' i r) H (Hd i r Hi Hr)) as (Ll & _). rewrite firstn_all2 in H4; [exact H4|]. rewrite <- Ll. apply Nat.le_refl.
Qed.
End copy.

(** ** Reorder *)
Lemma strip_spec a l : Ascii.eqb a "/" = false -> forall k, strip (repeat "/"%char k ++ a :: l) = Ok (a :: l).
Proof. intros Ha k. induction k as [|k IH]; cbn [repeat app strip]; [now rewrite Ha|exact IH]. Qed.
Lemma strip_slashes k : strip (repeat "/"%char k) = UB.
Proof. induction k; trivial. Qed.

Lemma string_app_list a b : list_ascii_of_string (a ++ b) = (list_ascii_of_string a ++ list_ascii_of_string b)%list.
Proof. induction a as [|c a IH]; cbn; [reflexivity|now rewrite IH]. Qed.
Lemma string_of_app a b : string_of_list_ascii (a ++ b) = (string_of_list_ascii a ++ string_of_list_ascii b)%string.
Proof. induction a as [|c a IH]; cbn; [reflexivity|now rewrite IH]. Qed.

Lemma slashes_list p s : slashes p s -> exists k, rev (list_ascii_of_string s) = (repeat "/"%char k ++ rev (list_ascii_of_string p))%list.
Proof.
  induction 1 as [|s _ (k & E)]; [now exists O|]. exists (S k). rewrite string_app_list, rev_app_distr, E. reflexivity.
Qed.

Theorem temp_name_ok p a loc : a <> "/"%char -> slashes (p ++ String a "") loc -> temp_name loc = Ok (p ++ String a "temp")%string.
Proof.
  intros Ha Sl. destruct (slashes_list _ _ Sl) as (k & E). unfold temp_name. rewrite E, string_app_list, rev_app_distr. cbn [list_ascii_of_string rev app].
  rewrite strip_spec by now apply Ascii.eqb_neq. cbn [bind]. cbn [rev]. rewrite rev_involutive, string_of_app, string_of_list_ascii_of_string. cbn [string_of_list_ascii].
  f_equal. clear. induction p as [|c p IH]; cbn; [reflexivity|now rewrite IH].
Qed.

Theorem temp_name_bad loc : slashes "" loc -> temp_name loc = UB.
Proof. intros Sl. destruct (slashes_list _ _ Sl) as (k & E). unfold temp_name. rewrite E. cbn [list_ascii_of_string rev]. now rewrite app_nil_r, strip_slashes. Qed.

Lemma temp_other p a loc : slashes (p ++ String a "") loc -> (p ++ String a "temp")%string <> loc.
Proof.
  intros Sl E. destruct (slashes_list _ _ Sl) as (k & Q). rewrite <- E in Q. rewrite !string_app_list, !rev_app_distr in Q. cbn [list_ascii_of_string rev app] in Q.
  destruct k as [|k]; cbn [repeat app] in Q; [|discriminate Q]. apply (f_equal (@List.length ascii)) in Q. cbn in Q. lia.
Qed.

Theorem reordered {A} (copy : A -> res A) files loc p a t t' : a <> "/"%char -> slashes (p ++ String a "") loc -> files loc = Some t -> copy t = Ok t' ->
  exists f, Reorder copy files loc = Ok f /\ f loc = Some t' /\ f (p ++ String a "temp")%string = None /\ forall x, x <> loc -> x <> (p ++ String a "temp")%string -> f x = files x.
Proof.
  intros Ha Sl Ef Ec. unfold Reorder. rewrite Ef, (temp_name_ok p a loc Ha Sl). cbn [bind]. rewrite Ec. cbn [bind]. pose proof (temp_other p a loc Sl) as Nt. set (tmp := (p ++ String a "temp")%string) in *.
  eexists. split; [reflexivity|]. cbv beta. rewrite String.eqb_refl. rewrite (proj2 (String.eqb_neq tmp loc) Nt), String.eqb_refl. split; trivial. split; trivial.
  intros x N1 N2. now rewrite (proj2 (String.eqb_neq _ _) N1), (proj2 (String.eqb_neq _ _) N2).
Qed.

Theorem reorder_fails {A} (copy : A -> res A) files loc p a t : a <> "/"%char -> slashes (p ++ String a "") loc -> files loc = Some t -> copy t = Throw ->
  Reorder copy files loc = Throw.
Proof. intros Ha Sl Ef Ec. unfold Reorder. rewrite Ef, (temp_name_ok p a loc Ha Sl). cbn [bind]. now rewrite Ec. Qed.
