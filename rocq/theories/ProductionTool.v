(** The manager that dscompress makes, and the table that it writes.  Proof file. *)
From Coq Require Import Reals Lra Lia String.
From Flocq Require Import Core.
From Verif Require Import Base BaseLemmas Floats TimeBlockBuffer TbbSpec BitStream BytePacker File FileProofs StMan StManSpec HeaderProofs StManProofs.
From Verif Require Import StochasticEncoder EncSpec TableSpec TimeBlockEncoders TbeSpec Weights WeightSpec Block BlockSpec Column ColumnSpec ColumnOrder StoredColumn System SystemSpec SystemCols SystemInv SystemOrder SystemWrite SystemAll
  Production ProductionSpec ProductionProofs.
From Verif Require Dscompress DsSpec DsProofs DsMore DsColumn.
From Coq Require Import ZifyNat ZifyN.
Local Open Scope N_scope.

Section Manager.
Context (o : Dscompress.options) (nrow p n : N).
Notation S0 := (tool_settings o).
Hypotheses (Sd : supported (dataBitCount S0)) (Sw : supported (weightBitCount S0)).

(** a column of the manager after prepare *)
Definition tool_column (c : string) : column := set_bits S0 (new_column S0 c p n).

Record made (names : list string) (m : stman) : Prop := {
  md_options : same_options S0 m;
  md_blocks : nBlocksInFile m = 0; md_rows : rowsPerBlock m = 0; md_ants : antennaCount m = 0; md_size : blockSize m = 0;
  md_columns : columns m = map tool_column names;
  md_file : fsize (fil m) <= 52 + len (name m) + 24 * N.of_nat (length (columns m));
  md_bytes : bytes8 (fil m) }.

Lemma bits_pos b : supported b -> (b =? 0) = false.
Proof. intros H. repeat (destruct H as [<-|H]; [reflexivity|]). destruct H. Qed.

Lemma name_bytes : Forall (fun v => v < 2 ^ 8) (name S0).
Proof. repeat constructor. Qed.

Lemma set_bits_same m c : same_options S0 m -> set_bits m c = set_bits S0 c.
Proof. intros (_ & E1 & E2 & _). unfold set_bits. now rewrite E1, E2. Qed.
Lemma new_column_same m c : same_options S0 m -> new_column m c p n = new_column S0 c p n.
Proof. intros (_ & _ & _ & _ & E & _). unfold new_column, data_kind. now rewrite E. Qed.
Lemma set_bits_twice c : set_bits S0 (tool_column c) = tool_column c.
Proof. reflexivity. Qed.

Lemma add_made names c m : made names m -> exists m', addColumnMan m (new_column m c p n) = Ok m' /\ made (names ++ [c]) m'.
Proof.
  intros [So B R A Z C F Y]. unfold addColumnMan. rewrite B. cbn [N.eqb negb]. unfold prepareMan.
  cbn [set_columns dataBitCount weightBitCount columns]. pose proof So as (E1 & E2 & E3 & E4 & E5 & E6 & E7).
  rewrite E2, E3, (bits_pos _ Sd), (bits_pos _ Sw). cbn [orb].
  unfold areOffsetsInitialized. cbn [set_columns rowsPerBlock]. rewrite R. cbn [N.eqb negb bind].
  assert (Ec : map (set_bits (set_columns m (columns m ++ [new_column m c p n]))) (columns m ++ [new_column m c p n]) = map tool_column (names ++ [c])).
  { rewrite C, !map_app, map_map. cbn [map]. f_equal.
    - apply map_ext. intros x. change (set_bits m (tool_column x) = tool_column x). now rewrite set_bits_same, set_bits_twice.
    - f_equal. change (set_bits m (new_column m c p n) = tool_column c). now rewrite set_bits_same, new_column_same. }
  rewrite Ec. set (m1 := set_columns _ _). exists (writeHeader m1). split; [reflexivity|].
  assert (Nm : name m1 = name S0) by exact E1.
  constructor; trivial.
  - rewrite fsize_writeHeader, header_bytes_len. change (fil m1) with (fil m). change (name (writeHeader m1)) with (name m1). change (columns (writeHeader m1)) with (columns m1). change (name m) with (name m1) in F.
    apply N.max_lub; [|lia]. rewrite C, map_length in F. change (columns m1) with (map tool_column (names ++ [c])). rewrite map_length, app_length. cbn [length]. lia.
  - unfold writeHeader. cbn [set_file fil set_hdrSize]. apply write8; [exact Y|]. apply header_fits8. rewrite Nm. apply name_bytes.
Qed.

Lemma fold_made l : forall names m, made names m -> exists m', foldM (fun m c => addColumnMan m (new_column m c p n)) l m = Ok m' /\ made (names ++ l) m'.
Proof.
  induction l as [|c l IH]; intros names m H; cbn [foldM].
  - exists m. now rewrite app_nil_r.
  - destruct (add_made names c m H) as (m1 & -> & H1). cbn [bind]. destruct (IH _ _ H1) as (m2 & E & H2). exists m2. split; trivial. now rewrite <- app_assoc in H2.
Qed.

Lemma tool_made names : names <> [] -> exists m, tool_manager o nrow p n names = Ok m /\ made names m.
Proof.
  intros Hn. destruct names as [|c names]; [easy|]. unfold tool_manager. set (m := createMan nrow S0).
  assert (Q : exists m1, prepareMan (set_columns m [new_column m c p n]) = Ok m1 /\ made [c] m1).
  { unfold prepareMan. change (dataBitCount (set_columns m [new_column m c p n])) with (dataBitCount S0). change (weightBitCount (set_columns m [new_column m c p n])) with (weightBitCount S0).
    rewrite (bits_pos _ Sd), (bits_pos _ Sw). cbn [orb]. change (areOffsetsInitialized (set_columns m [new_column m c p n])) with false.
    eexists. split; [reflexivity|]. constructor; try reflexivity.
    - now repeat split.
    - cbn [fil set_columns m createMan set_nBlocks set_file set_nRow]. cbn. lia.
    - intros z. reflexivity. }
  destruct Q as (m1 & -> & H1). cbn [bind]. destruct (fold_made names [c] m1 H1) as (m2 & E & H2). exists m2. split; trivial.
Qed.

(** ** It is the manager of a new table *)
Context (names : list string) (m : stman) (Hm : made names m) (Hnames : names <> []) (Hlen : 62 + 24 * N.of_nat (List.length names) < 2 ^ 32) (Hp : 0 < p) (Hn : 0 < n).

Lemma made_storable : storable m.
Proof.
  destruct Hm as [(E1 & E2 & E3 & E4 & E5 & E6 & E7) B R A Z C F Y].
  assert (B17 : forall b, supported b -> b < 256) by (intros b H; pose proof (proj2 (proj2 (supported_count b H))); lia).
  constructor.
  - rewrite E1, C, map_length. change (len (name S0)) with 10. lia.
  - rewrite R. reflexivity.
  - rewrite A. reflexivity.
  - rewrite Z. reflexivity.
  - rewrite E2. now apply B17.
  - rewrite E3. now apply B17.
  - rewrite E4. cbn. destruct (Dscompress.o_distribution o); reflexivity.
  - rewrite E5. cbn. destruct (Dscompress.o_normalization o); reflexivity.
  - rewrite E6. cbn [studentTNu tool_settings]. destruct (Dscompress.o_distribution o); apply double_bits_small.
  - rewrite E7. cbn [truncation tool_settings]. destruct (Dscompress.o_distribution o); apply double_bits_small.
  - rewrite C. apply Forall_forall. intros c Hc. apply in_map_iff in Hc as (x & <- & _). split; reflexivity.
Qed.

Lemma made_described e : described (config m e) m.
Proof.
  destruct Hm as [So B R A Z C F Y]. pose proof So as (E1 & E2 & E3 & E4 & E5 & E6 & E7).
  intros i col Hc. unfold config. rewrite Hc. rewrite C in Hc. rewrite nth_error_map in Hc. destruct (nth_error names i) as [c|]; [|discriminate]. injection Hc as <-.
  unfold tool_column, new_column, set_bits, data_kind, Prepare_data, Prepare_weight. cbn [co_kind co_nPol co_nChan]. rewrite E2, E3, E5.
  destruct (String.eqb c "WEIGHT_SPECTRUM").
  - split; [|cbn; lia]. repeat split; cbn; lia.
  - cbn [normalization tool_settings]. destruct (Dscompress.o_normalization o); cbn [normalization_code N.eqb Pos.eqb]; (split; [|cbn; lia]); repeat split; cbn; lia.
Qed.

Lemma made_new e : new_table (config m e) m.
Proof.
  pose proof made_storable as St. pose proof (made_described e) as De. destruct Hm as [So B R A Z C F Y]. pose proof So as (E1 & E2 & E3 & E4 & E5 & E6 & E7). constructor; trivial.
  - rewrite E2. apply N.eqb_neq. now apply bits_pos.
  - rewrite E3. apply N.eqb_neq. now apply bits_pos.
  - rewrite C. destruct names; [easy|discriminate].
  - rewrite C, map_map. apply map_ext. intros c. now rewrite set_bits_same, set_bits_twice.
Qed.

Lemma config_kind e i c : nth_error names i = Some c -> nPol_of (config m e i) = N.to_nat p /\ nChan_of (config m e i) = N.to_nat n /\
  ((exists x y z, config m e i = CWeight x y z) <-> c = "WEIGHT_SPECTRUM"%string).
Proof.
  destruct Hm as [So B R A Z C F Y]. pose proof So as (E1 & E2 & E3 & E4 & E5 & E6 & E7). intros Hc. unfold config. rewrite C, nth_error_map, Hc. cbn [option_map].
  unfold tool_column, new_column, set_bits, data_kind, Prepare_data, Prepare_weight. cbn [co_kind co_nPol co_nChan]. rewrite E5.
  destruct (String.eqb_spec c "WEIGHT_SPECTRUM").
  - repeat split; trivial. eauto.
  - cbn [normalization tool_settings]. destruct (Dscompress.o_normalization o); cbn [normalization_code N.eqb Pos.eqb]; (repeat split; [|easy]); intros (x & y & z & E); discriminate.
Qed.

Lemma config_none e i : nth_error names i = None -> config m e i = Prepare_weight m 1 1.
Proof. intros H. unfold config. rewrite (md_columns _ _ Hm), nth_error_map, H. reflexivity. Qed.
End Manager.

(** ** After opening, Prepare makes the same columns *)
Lemma prepared_again cfg T nt m0 D K L n na G cfg' : writable cfg T nt m0 D K L n na -> forall ks S, sys_order cfg T nt m0 D K ks S ->
  forall m3, columns m3 = columns (man cfg T nt S) -> same_options m0 m3 -> all_prepared G m0 cfg' -> all_prepared G m3 cfg'.
Proof.
  intros W ks S H m3 Ec So Hp i col Hc. rewrite Ec in Hc.
  destruct (all_so cfg T nt m0 D K L n na W ks S H) as (I & _). pose proof (s_shape _ _ _ _ _ _ (o_si _ _ _ _ _ _ _ _ _ I)) as Sh. change (man _ _ _ (snew cfg T nt m0)) with m0 in Sh.
  destruct (shape_nth _ _ Sh i col Hc) as (c & Hc0 & (Q1 & Q2 & Q3 & _)). apply (prepared_same G m0); trivial. apply (prepared_shape G m0 c); trivial. now apply Hp.
Qed.

(** ** The options *)
Lemma options_settings Phi T d G o : options_ok Phi T d G o -> settings_ok Phi T d G (tool_settings o).
Proof.
  intros (Sd & Sw & Np & H). split; [exact Sd|]. split; [exact Sw|]. split; [destruct o as [? []]; reflexivity|]. split; [exact Np|].
  cbn [distribution studentTNu truncation tool_settings]. destruct (Dscompress.o_distribution o); cbn [distribution_code].
  - left. now split.
  - right. now left.
  - right. right. left. now rewrite double_of_bits.
  - right. right. right. now rewrite double_of_bits.
Qed.

Lemma option_quantiles_eq Phi T o p z : quantiles Phi T (tool_settings o) p z = option_quantiles Phi T o p z.
Proof.
  unfold quantiles, option_quantiles. cbn [distribution truncation tool_settings]. destruct (Dscompress.o_distribution o); trivial. cbn [distribution_code]. now rewrite double_of_bits.
Qed.

(** ** The table of the tool *)
Lemma nth_app_skip {A} (l : list A) k d : (k < List.length l)%nat -> nth_error l k = Some (nth k l d).
Proof. intros H. now apply nth_error_nth'. Qed.

Lemma flagged_eq f : forall d d', List.length f = List.length d -> List.length d' = List.length d ->
  (forall j x, nth_error d j = Some x -> nth_error d' j = Some (if nth j f false then (nan32, nan32) else x)) -> d' = flagged f d.
Proof.
  induction f as [|b f IH]; intros [|x d] [|x' d'] L L' H; try discriminate; trivial.
  unfold flagged. cbn [combine map fst snd]. pose proof (H O x eq_refl) as E. cbn in E. injection E as ->. f_equal.
  apply IH; [now injection L|now injection L'|]. intros j y Hy. exact (H (Datatypes.S j) y Hy).
Qed.

Section Tool.
Context (Phi Tc dn : R -> R) (G : gsl) (o : Dscompress.options) (p n : nat) (rows : list Dscompress.ms_row) (cols : Dscompress.columns)
  (flags : list (list bool)) (weights : list (list f32)).
Hypotheses (Ho : options_ok Phi Tc dn G o) (Hc : compressible o p n rows cols flags weights).
Notation names := (Dscompress.o_columns o).
Notation K := (N.of_nat (List.length rows)).
Notation ready := (tool_ready G o p n rows cols flags).
Let Hs := options_settings Phi Tc dn G o Ho.

Lemma rows_some : rows <> [].
Proof. destruct (cp_blocks _ _ _ _ _ _ _ Hc) as (r0 & rest & x & -> & _). discriminate. Qed.

Lemma tool_exists : exists cols' m e L, ready cols' m e /\ levels e L /\ all_prepared G m (config m e).
Proof.
  destruct Hs as (Sd & Sw & Nn & _). destruct (cp_names _ _ _ _ _ _ _ Hc) as (Nz & _ & Nl). destruct (cp_flags _ _ _ _ _ _ _ Hc) as (Fl & Fa).
  destruct (DsMore.flag_columns_total flags names) with (nf := (p * n)%nat) (cols := cols) as (cols' & Ec); trivial.
  { intros Ef. apply rows_some. apply length_zero_iff_nil. now rewrite <- Fl, Ef. }
  { intros c Ic Nc. destruct (cp_data _ _ _ _ _ _ _ Hc c Ic Nc) as (d & E & Fd). exists d. rewrite Fl. pose proof (cp_table _ _ _ _ _ _ _ Hc c d E). now repeat split. }
  destruct (tool_made o K (N.of_nat p) (N.of_nat n) Sd Sw names Nz) as (m & Em & Hm).
  destruct (encoder_exists _ _ _ _ _ Hs) as (e & L & He & Hl & _). pose proof (encoder_same _ _ _ _ (md_options _ _ _ _ _ Hm) He) as He'.
  exists cols', m, e, L. split; [now split|]. split; trivial. apply config_prepared; trivial.
  destruct (md_options _ _ _ _ _ Hm) as (_ & _ & _ & _ & -> & _). exact Nn.
Qed.

Context (cols' : Dscompress.columns) (m : stman) (e : encoder) (Hr : ready cols' m e).

Lemma tool_is_made : made o (N.of_nat p) (N.of_nat n) names m.
Proof.
  destruct Hs as (Sd & Sw & Nn & _). destruct (cp_names _ _ _ _ _ _ _ Hc) as (Nz & _). destruct Hr as (_ & Em & _).
  destruct (tool_made o K (N.of_nat p) (N.of_nat n) Sd Sw names Nz) as (m' & Em' & Hm). rewrite Em in Em'. now injection Em' as ->.
Qed.
Let Hm := tool_is_made.
Notation cfg := (config m e).

Lemma tool_levels : exists L, levels e L /\ bit_encoder e (dataBitCount m).
Proof.
  destruct (encoder_exists _ _ _ _ _ Hs) as (e1 & L & He & Hl & Hb). pose proof (encoder_same _ _ _ _ (md_options _ _ _ _ _ Hm) He) as He'.
  destruct Hr as (_ & _ & He2). rewrite (encoder_unique _ _ _ _ He' He2). exists L. split; trivial. now destruct (md_options _ _ _ _ _ Hm) as (_ & -> & _).
Qed.

Lemma tool_options : table_of (option_quantiles Phi Tc o) (Z.to_nat (2 ^ Dscompress.o_bits o)) e /\ dataBitCount m = Z.to_N (Dscompress.o_bits o) /\
  List.length (columns m) = List.length names /\
  forall i c, nth_error names i = Some c -> config m e i = option_column o e p n c.
Proof.
  pose proof (md_options _ _ _ _ _ Hm) as So. destruct So as (_ & E2 & E3 & E4 & E5 & _). split; [|split; [exact E2|split; [rewrite (md_columns _ _ _ _ _ Hm); apply map_length|]]].
  - destruct (encoder_table _ _ _ _ _ Hs) as (e1 & L & He & _ & _ & Te). pose proof (encoder_same _ _ _ _ (md_options _ _ _ _ _ Hm) He) as He'.
    destruct Hr as (_ & _ & He2). rewrite (encoder_unique _ _ _ _ He' He2).
    assert (Eq : quantCount (tool_settings o) = Z.to_nat (2 ^ Dscompress.o_bits o)).
    { unfold quantCount. cbn [dataBitCount tool_settings]. pose proof (proj1 Ho) as S1. destruct (Dscompress.o_bits o) as [|b|b]; [reflexivity| |exfalso; cbn in S1; intuition discriminate].
      change (Z.to_N (Z.pos b)) with (N.pos b). rewrite <- (N2Z.id (2 ^ N.pos b)), Z_N_nat, N2Z.inj_pow. reflexivity. }
    rewrite <- Eq. destruct Te as [T1 T2 T3 T4 T5 T6]. constructor; trivial.
    + intros i z Hi Hz. rewrite <- option_quantiles_eq in Hz. now apply T4.
    + intros i z Hi Hz. rewrite <- option_quantiles_eq in Hz. now apply T5.
  - intros i c Hi. unfold config. rewrite (md_columns _ _ _ _ _ Hm), nth_error_map, Hi. cbn [option_map].
    unfold tool_column, new_column, set_bits, data_kind, option_column, Prepare_data, Prepare_weight. cbn [co_kind co_nPol co_nChan]. rewrite E2, E3, E5, !Nat2N.id.
    destruct (String.eqb c "WEIGHT_SPECTRUM"); [reflexivity|]. cbn [normalization tool_settings dataBitCount]. destruct (Dscompress.o_normalization o); reflexivity.
Qed.

Lemma tool_norm : normalization m < 3 /\ supported (weightBitCount m).
Proof. destruct Hs as (_ & Sw & Nn & _). destruct (md_options _ _ _ _ _ Hm) as (_ & _ & -> & _ & -> & _). now split. Qed.

(** the rows of the old columns, after flagging *)
Lemma tool_rows i r : (i < List.length names)%nat -> r < K ->
  exists f w, nth_error flags (N.to_nat r) = Some f /\ nth_error weights (N.to_nat r) = Some w /\ List.length f = (p * n)%nat /\
  (nth i names EmptyString <> "WEIGHT_SPECTRUM"%string -> exists l d, cols (nth i names EmptyString) = Some l /\ nth_error l (N.to_nat r) = Some d /\ List.length d = (p * n)%nat /\
     exists l', cols' (nth i names EmptyString) = Some l' /\ nth_error l' (N.to_nat r) = Some (flagged f d)).
Proof.
  intros Hi Hrk. set (k := N.to_nat r). assert (Hk : (k < List.length rows)%nat) by lia. destruct (cp_flags _ _ _ _ _ _ _ Hc) as (Fl & Fa). destruct (cp_weights _ _ _ _ _ _ _ Hc) as (Wl & Wa).
  destruct (nth_error flags k) as [f|] eqn:Ef; [|apply nth_error_None in Ef; lia]. destruct (nth_error weights k) as [w|] eqn:Ew; [|apply nth_error_None in Ew; lia].
  assert (Lf : List.length f = (p * n)%nat) by (rewrite Forall_forall in Fa; apply Fa; eapply nth_error_In; eauto).
  exists f, w. repeat (split; trivial). intros Nw. set (c := nth i names EmptyString) in *. assert (Ic : In c names) by now apply nth_In.
  destruct (cp_data _ _ _ _ _ _ _ Hc c Ic Nw) as (l & El & Fd). pose proof (cp_table _ _ _ _ _ _ _ Hc c l El) as Ll. destruct (nth_error l k) as [d|] eqn:Ed; [|apply nth_error_None in Ed; lia].
  assert (Ldd : List.length d = (p * n)%nat) by (rewrite Forall_forall in Fd; apply Fd; eapply nth_error_In; eauto).
  exists l, d. repeat (split; trivial).
  destruct Hr as (Efl & _). destruct (DsMore.flag_columns_spec flags names cols cols') with (n := c) as (A & _); trivial.
  { intros x. unfold DsMore.column_of. destruct (cols x) as [dx|] eqn:Ex; trivial. rewrite Fl. now apply (cp_table _ _ _ _ _ _ _ Hc x). }
  destruct (A (conj Ic Nw)) as (l1 & l' & E1 & E2 & (Ll' & H)). rewrite El in E1. injection E1 as <-. exists l'. split; trivial.
  destruct (H k d Ed) as (d' & Ed' & Ld' & N). rewrite Ed'. apply (f_equal Some). apply flagged_eq; [exact (eq_trans Lf (eq_sym Ldd))|exact Ld'|]. intros j x Ej. specialize (N j x Ej). rewrite (nth_error_nth flags k [] Ef) in N. exact N.
Qed.

Lemma moved_row i r : (i < List.length names)%nat -> r < K ->
  exists f w d, nth_error flags (N.to_nat r) = Some f /\ nth_error weights (N.to_nat r) = Some w /\ List.length f = (p * n)%nat /\ List.length d = (p * n)%nat /\
  (nth i names EmptyString <> "WEIGHT_SPECTRUM"%string -> exists l, cols (nth i names EmptyString) = Some l /\ nth_error l (N.to_nat r) = Some d) /\
  moved cfg names cols' weights (p * n) i r = choose (cfg i) (flagged f d) w.
Proof.
  intros Hi Hrk. destruct (tool_rows i r Hi Hrk) as (f & w & Ef & Ew & Lf & H). unfold moved. rewrite (nth_error_nth weights _ (repeat (of32 0) (p * n)) Ew).
  assert (Hic : nth_error names i = Some (nth i names EmptyString)) by now apply nth_error_nth'.
  destruct (config_kind o (N.of_nat p) (N.of_nat n) names m Hm e i _ Hic) as (_ & _ & Ck).
  destruct (string_dec (nth i names EmptyString) "WEIGHT_SPECTRUM") as [W|W].
  - exists f, w, (repeat (nan32, nan32) (p * n)). repeat (split; trivial); [apply repeat_length|now intros C; destruct (C W)|]. destruct (proj2 Ck W) as (x & y & z & ->). reflexivity.
  - destruct (H W) as (l & d & El & Ed & Ld & l' & El' & Ed'). exists f, w, d. repeat (split; trivial); [eauto|]. now rewrite El', (nth_error_nth l' _ _ Ed').
Qed.

Lemma flagged_length f (d : list cf) z : List.length f = z -> List.length d = z -> List.length (flagged f d) = z.
Proof. intros E1 E2. unfold flagged. rewrite map_length, combine_length, E1, E2. apply Nat.min_id. Qed.

Lemma choose_length c vis w z : List.length vis = z -> List.length w = z -> List.length (choose c vis w) = z.
Proof. now destruct c. Qed.

Lemma weights_row r : List.length (nth r weights (repeat (of32 0) (p * n))) = (p * n)%nat /\ Forall nonneg (nth r weights (repeat (of32 0) (p * n))).
Proof.
  destruct (cp_weights _ _ _ _ _ _ _ Hc) as (Wl & Wa). destruct (nth_in_or_default r weights (repeat (of32 0) (p * n))) as [I| ->].
  - rewrite Forall_forall in Wa. now apply Wa.
  - split; [apply repeat_length|]. apply Forall_forall. intros x Ix. apply repeat_spec in Ix as ->. split; [reflexivity|]. cbn. lra.
Qed.

Lemma moved_long i r : (nPol_of (cfg i) * nChan_of (cfg i) <= List.length (moved cfg names cols' weights (p * n) i r))%nat.
Proof.
  destruct (nth_error names i) as [c|] eqn:Ei.
  - destruct (config_kind o (N.of_nat p) (N.of_nat n) names m Hm e i c Ei) as (-> & -> & _). rewrite !Nat2N.id.
    assert (Hi : (i < List.length names)%nat) by (apply nth_error_Some; congruence). destruct (N.lt_ge_cases r K) as [Hrk|Hrk].
    + destruct (moved_row i r Hi Hrk) as (f & w & d & Ef & Ew & Lf & Ld & _ & ->). rewrite (choose_length _ _ _ (p * n)); trivial; [exact (flagged_length f d _ Lf Ld)|].
      destruct (weights_row (N.to_nat r)) as (Lw & _). now rewrite (nth_error_nth weights _ _ Ew) in Lw.
    + unfold moved. rewrite (choose_length _ _ _ (p * n)); trivial; [|apply weights_row].
      rewrite (nth_overflow weights) || idtac. rewrite nth_overflow; [apply repeat_length|]. destruct (cols' (nth i names EmptyString)) as [l'|] eqn:El; [|cbn; lia].
      destruct Hr as (Efl & _). destruct (DsMore.flag_columns_spec flags names cols cols') with (n := nth i names EmptyString) as (A & B); trivial.
      { intros x. unfold DsMore.column_of. destruct (cols x) as [dx|] eqn:Ex; trivial. rewrite (proj1 (cp_flags _ _ _ _ _ _ _ Hc)). now apply (cp_table _ _ _ _ _ _ _ Hc x). }
      destruct (string_dec (nth i names EmptyString) "WEIGHT_SPECTRUM") as [W|W].
      * rewrite (B (or_intror W)) in El. rewrite (cp_table _ _ _ _ _ _ _ Hc _ _ El). lia.
      * destruct A as (l1 & l2 & E1 & E2 & (Lq & _)); [split; trivial; now apply nth_In|]. rewrite El in E2. injection E2 as <-. rewrite Lq, (cp_table _ _ _ _ _ _ _ Hc _ _ E1). lia.
  - unfold moved. rewrite (config_none o (N.of_nat p) (N.of_nat n) names m Hm e i Ei). cbn [choose Prepare_weight nPol_of nChan_of].
    refine (Nat.le_trans _ _ _ _ (Nat.eq_le_incl _ _ (eq_sym (proj1 (weights_row (N.to_nat r)))))). destruct (cp_dims _ _ _ _ _ _ _ Hc). nia.
Qed.

Lemma choose_ok c vis w : (forall r, Forall nonneg (w r)) -> data_ok c (fun r => choose c (vis r) (w r)).
Proof. now destruct c. Qed.

Lemma table_sizes T nt : reads_table T rows -> exists nb na, first_block (colenv cfg T nt 0) nb /\ antenna_count (colenv cfg T nt 0) nb na /\ nb < K /\
  (forall r, (fst (t_ants T r) < na)%nat /\ (snd (t_ants T r) < na)%nat) /\ ants32 T.
Proof.
  intros HT. destruct (cp_blocks _ _ _ _ _ _ _ Hc) as (r0 & rest & x & E & Ix & Nx). pose proof (cp_valid _ _ _ _ _ _ _ Hc) as V. pose proof (cp_ants _ _ _ _ _ _ _ Hc) as Ha. rewrite E in *.
  destruct (DsColumn.accepted_table (colenv cfg T nt 0) r0 rest) as (nb & na & F & A & Lt & All); trivial; [now exists x|]. exists nb, na. repeat (split; trivial); try apply All.
  all: destruct HT as (_ & HT); rewrite HT; destruct (nth_error (r0 :: rest) (N.to_nat r)) as [y|] eqn:Ey; cbn [fst snd]; try reflexivity;
    destruct (Ha y (nth_error_In _ _ Ey)); lia.
Qed.

Lemma tool_writable T nt nb na L : nt <> 0%nat -> reads_table T rows -> first_block (colenv cfg T nt 0) nb -> antenna_count (colenv cfg T nt 0) nb na ->
  total nb (N.of_nat na) (columns m) < 2 ^ 32 -> levels e L ->
  writable cfg T nt m (moved cfg names cols' weights (p * n)) K (fun _ => L) nb na.
Proof.
  intros NT HT F A Tot HL. destruct (table_sizes T nt HT) as (nb' & na' & F' & A' & Lt & All & A32). destruct (first_block_unique _ _ _ F' F). destruct (antenna_count_unique _ _ _ _ A' A).
  destruct Hs as (Sd & Sw & _). destruct (cp_names _ _ _ _ _ _ _ Hc) as (Nz & _ & Nl). destruct (cp_dims _ _ _ _ _ _ _ Hc). destruct tool_norm as (Nn & Sw').
  constructor; trivial.
  - exact moved_long.
  - apply (made_new o (N.of_nat p) (N.of_nat n) Sd Sw names m Hm Nz); trivial; lia.
  - intros i. destruct tool_levels as (L' & _ & Hb). apply (config_ok G); trivial. apply Hr.
  - intros i. apply choose_ok. intros r. apply weights_row.
  - destruct (md_options _ _ _ _ _ Hm) as (-> & _). repeat constructor.
Qed.

Lemma kept_flags c L na x meta row f d w out : visibilities row = choose c (flagged f d) w -> List.length f = List.length d -> kept c L na x meta row out -> flags_kept c f out.
Proof.
  intros E Lf H. assert (X : forall row' : drow cf, visibilities row' = flagged f d -> forall out : list cf, nonfinite_kept row' out ->
    forall j, nth_error f j = Some true -> exists v, nth_error out j = Some v /\ is_nan (fst v) = true /\ is_nan (snd v) = true).
  { intros row' Ev out' Hn j Hj. assert (Hv : nth_error (visibilities row') j = Some (nan32, nan32)).
    { rewrite Ev. unfold flagged. destruct (nth_error d j) as [v|] eqn:Ed; [|apply nth_error_None in Ed; assert (j < List.length f)%nat by (apply nth_error_Some; congruence); lia].
      assert (Ec : nth_error (combine f d) j = Some (true, v)).
      { clear -Hj Ed. revert d j Hj Ed. induction f as [|b f IH]; intros [|z d] [|j] Hj Ed; cbn in *; try discriminate; [congruence|now apply IH]. }
      exact (map_nth_error (fun x : bool * (f32 * f32) => if fst x then (nan32, nan32) else snd x) j _ Ec). }
    destruct (Hn j _ false Hv eq_refl) as (v1 & E1 & N1). destruct (Hn j _ true Hv eq_refl) as (v2 & E2 & N2). rewrite E1 in E2. injection E2 as <-. exists v1. now repeat split. }
  destruct c; [..|exact I]; cbn in E, H |- *; apply (X row E out); apply H.
Qed.

Context (T : table) (nt : nat) (nb : N) (na : nat) (L : f32).
Hypotheses (NT : nt <> 0%nat) (HT : reads_table T rows) (F : first_block (colenv cfg T nt 0) nb) (A : antenna_count (colenv cfg T nt 0) nb na)
  (Tot : total nb (N.of_nat na) (columns m) < 2 ^ 32) (HL : levels e L).
Let W := tool_writable T nt nb na L NT HT F A Tot HL.
Notation D := (moved cfg names cols' weights (p * n)).

Lemma tool_written ks (S : sys cfg T nt) : sys_order cfg T nt m D K ks S ->
  running cfg T nt S /\ sfinishes S /\ (K <= 2 ^ 32 -> exists ks' S', sreach cfg T nt S S' /\ sys_order cfg T nt m D K ks' S' /\ all_closed S').
Proof.
  intros H. split; [apply (never_fails _ _ _ _ _ _ _ _ _ W ks S H)|]. split; [exact (writing_finishes _ _ _ _ _ _ _ _ _ W ks S H)|].
  intros HK. exact (can_be_closed _ _ _ _ _ _ _ _ _ W HK ks S H).
Qed.

Lemma tool_read_back ks (S : sys cfg T nt) : sys_order cfg T nt m D K ks S -> all_closed S -> forall mo nr, reopens (man cfg T nt S) mo ->
  exists m2 m3, openMan nr mo = Ok m2 /\ prepareMan m2 = Ok m3 /\ all_prepared G m3 cfg /\
    forall S', sys_reading (fun r => r < K) (sopen cfg T nt m3) S' -> running cfg T nt S' /\ sfinishes S' /\
    forall i r a, (i < List.length names)%nat -> In (r, a) (outs (cst cfg T nt S' i)) -> r < K /\
    exists f d w out x meta, nth_error flags (N.to_nat r) = Some f /\ nth_error weights (N.to_nat r) = Some w /\
      (nth i names EmptyString <> "WEIGHT_SPECTRUM"%string -> exists l, cols (nth i names EmptyString) = Some l /\ nth_error l (N.to_nat r) = Some d) /\
      a = AVals out /\ flags_kept (cfg i) f out /\ exact_block (colenv cfg T nt i) (D i) K nb (r / nb) x /\
      kept (cfg i) L na x meta (DRow (fst (t_ants T r)) (snd (t_ants T r)) (choose (cfg i) (flagged f d) w)) out.
Proof.
  intros H Cl mo nr Ro. destruct (round_trip _ _ _ _ _ _ _ _ _ W ks S H Cl mo nr Ro) as (m2 & m3 & O & P & Mc & Mr & Ma & So & Q).
  destruct (reads_finish _ _ _ _ _ _ _ _ _ W ks S H Cl mo nr Ro) as (m2' & m3' & O' & P' & Q'). rewrite O in O'. injection O' as <-. rewrite P in P'. injection P' as <-.
  exists m2, m3. split; trivial. split; trivial. destruct tool_norm as (Nn & _). destruct Hr as (_ & _ & He).
  split; [apply (prepared_again _ _ _ _ _ _ _ _ _ G cfg W ks S H m3 Mc So); now apply config_prepared|].
  intros S' Rd. destruct (Q S' Rd) as (R' & _ & Q1). destruct (Q' S' Rd) as (Fi & _). split; trivial. split; trivial. intros i r a Hi Hin.
  assert (Nc : ncol cfg T nt S = List.length names) by (rewrite (all_ncol _ _ _ _ _ _ _ _ _ W ks S H), (md_columns _ _ _ _ _ Hm); apply map_length).
  destruct (Q1 i r a ltac:(now rewrite Nc) Hin) as (Hrk & out & x & y & Ea & Ex & _ & Kp). split; trivial.
  destruct (moved_row i r Hi Hrk) as (f & w & d & Ef & Ew & Lf & Ld & Hd & Em).
  assert (Hic : nth_error names i = Some (nth i names EmptyString)) by now apply nth_error_nth'.
  destruct (config_kind o (N.of_nat p) (N.of_nat n) names m Hm e i _ Hic) as (Ep & En & _). rewrite !Nat2N.id in Ep, En.
  assert (Lw : List.length w = (p * n)%nat) by (destruct (weights_row (N.to_nat r)) as (Lw & _); now rewrite (nth_error_nth weights _ _ Ew) in Lw).
  rewrite Ep, En, Em in Kp. rewrite (firstn_all2 (choose (cfg i) (flagged f d) w)) in Kp
    by (apply Nat.eq_le_incl; exact (choose_length (cfg i) _ _ _ (flagged_length f d _ Lf Ld) Lw)).
  exists f, d, w, out, x. eexists. repeat (split; [eassumption|]). split; [|split; [exact Ex|exact Kp]].
  eapply kept_flags; [|exact (eq_trans Lf (eq_sym Ld))|exact Kp]. reflexivity.
Qed.
End Tool.

(** ** Columns *)
Lemma columns_prepared Phi T d G m : settings_ok Phi T d G m ->
  exists cfg L, all_prepared G m cfg /\ (forall i, coldef_ok (cfg i) L) /\
  forall cfg', all_prepared G m cfg' -> forall i, (i < List.length (columns m))%nat -> cfg' i = cfg i.
Proof.
  intros H. destruct (encoder_exists Phi T d G m H) as (e & L & He & Hl & Hb). destruct H as (_ & Sw & Nn & _). exists (config m e), L.
  pose proof (config_prepared G m e He Nn) as P. split; trivial. split; [intros i; now apply (config_ok G)|].
  intros cfg' P' i Hi. destruct (nth_error (columns m) i) as [col|] eqn:E; [|apply nth_error_None in E; lia]. exact (prepared_unique G m col _ _ (P i col E) (P' i col E)).
Qed.

Lemma prepared_reopened cfg T nt m0 D K L n na G : writable cfg T nt m0 D K L n na -> all_prepared G m0 cfg ->
  forall ks S, sys_order cfg T nt m0 D K ks S -> all_closed S -> forall mo nr, reopens (man cfg T nt S) mo ->
  exists m2 m3, openMan nr mo = Ok m2 /\ prepareMan m2 = Ok m3 /\ all_prepared G m3 cfg /\
  forall cfg', all_prepared G m3 cfg' -> forall i, (i < List.length (columns m0))%nat -> cfg' i = cfg i.
Proof.
  intros W P ks S H Cl mo nr Ro. destruct (round_trip _ _ _ _ _ _ _ _ _ W ks S H Cl mo nr Ro) as (m2 & m3 & O & Pm & Mc & Mr & Ma & So & _). exists m2, m3. split; trivial. split; trivial.
  pose proof (prepared_again _ _ _ _ _ _ _ _ _ G cfg W ks S H m3 Mc So P) as P3. split; trivial. intros cfg' P' i Hi.
  rewrite <- (all_ncol _ _ _ _ _ _ _ _ _ W ks S H) in Hi. unfold System.ncol in Hi. rewrite <- Mc in Hi.
  destruct (nth_error (columns m3) i) as [col|] eqn:E; [|apply nth_error_None in E; lia]. exact (prepared_unique G m3 col _ _ (P3 i col E) (P' i col E)).
Qed.
