(** Proofs about dscompress and decompress: flags, command line, replacing columns. *)
From Verif Require Import Base Floats FloatLemmas Dscompress DsSpec DsProofs.
From Coq Require Import List.

(** ** Flags *)
Lemma flag_samples_ok d : forall f, (length d <= length f)%nat ->
  exists d' ch, flag_samples d f = Ok (d', ch) /\ length d' = length d /\
    (forall j x, nth_error d j = Some x -> nth_error d' j = Some (if nth j f false then nan_sample else x)) /\ (ch = false -> d' = d).
Proof.
  induction d as [|x d IH]; intros f L.
  - exists [], false. cbn. do 2 (split; [trivial|]). split; [|trivial]. intros j x H. now destruct j.
  - destruct f as [|b f]; cbn in L; [lia|]. destruct (IH f) as (d' & ch & E & L' & N & C); [lia|].
    exists ((if b then nan_sample else x) :: d'), (b || ch). cbn. rewrite E. cbn. split; [trivial|]. split; [lia|]. split.
    + intros [|j] y H; cbn in *; [now injection H as <-|now apply N].
    + destruct b; cbn; [discriminate|]. intros Ch. now rewrite (C Ch).
Qed.

Lemma flag_samples_inv d : forall f d' ch, flag_samples d f = Ok (d', ch) -> (length d <= length f)%nat.
Proof.
  induction d as [|x d IH]; intros f d' ch H; cbn in *; [lia|]. destruct f as [|b f]; [discriminate|].
  destruct (flag_samples d f) as [[d2 c2]| |] eqn:E; try discriminate. apply IH in E. cbn. lia.
Qed.

(** the contents of a column after flagging *)
Definition flagged (data : list (list cf32)) (flags : list (list bool)) (data' : list (list cf32)) : Prop :=
  length data' = length data /\
  forall i d, nth_error data i = Some d -> exists d', nth_error data' i = Some d' /\ length d' = length d /\
    forall j x, nth_error d j = Some x -> nth_error d' j = Some (if nth j (nth i flags []) false then nan_sample else x).

Lemma flag_row_ok nd nf d f : length d = nd -> length f = nf -> (nd <= nf)%nat ->
  exists d', flag_row nd nf d f = Ok d' /\ length d' = length d /\
    forall j x, nth_error d j = Some x -> nth_error d' j = Some (if nth j f false then nan_sample else x).
Proof.
  intros <- <- L. unfold flag_row. rewrite !Nat.eqb_refl. cbn. destruct (flag_samples_ok d f L) as (d' & ch & E & L' & N & C).
  rewrite E. cbn. destruct ch; [exists d'; auto|]. exists d. specialize (C eq_refl) as ->. auto.
Qed.

Lemma flag_row_inv nd nf d f d' : flag_row nd nf d f = Ok d' -> length d = nd /\ length f = nf /\ (nd <= nf)%nat.
Proof.
  unfold flag_row. destruct (Nat.eqb_spec (length d) nd) as [<-|]; [|discriminate]. destruct (Nat.eqb_spec (length f) nf) as [<-|]; [|discriminate]. cbn.
  destruct (flag_samples d f) as [[d2 c2]| |] eqn:E; try discriminate. intros _. apply flag_samples_inv in E. auto.
Qed.

Lemma flag_rows_spec nd nf data : forall flags data', length data = length flags -> flag_rows nd nf data flags = Ok data' -> flagged data flags data'.
Proof.
  induction data as [|d data IH]; intros flags data' L H; destruct flags as [|f flags]; try discriminate; cbn in H.
  - injection H as <-. split; trivial. intros [|i] d E; discriminate.
  - destruct (flag_row nd nf d f) as [d'| |] eqn:R; try discriminate. cbn in H.
    destruct (flag_rows nd nf data flags) as [r| |] eqn:E; try discriminate. cbn in H. injection H as <-.
    destruct (IH flags r) as [L' N]; [cbn in L; lia|trivial|]. split; [cbn; lia|]. intros [|i] d0 E0; cbn in *.
    + injection E0 as <-. destruct (flag_row_inv _ _ _ _ _ R) as (A & B & C). destruct (flag_row_ok nd nf d f A B C) as (d2 & R2 & S).
      rewrite R in R2. injection R2 as <-. exists d'. split; trivial.
    + now apply N.
Qed.

Lemma flag_rows_total nd nf data : forall flags, (nd <= nf)%nat -> Forall (fun d => length d = nd) data -> Forall (fun f => length f = nf) flags ->
  exists data', flag_rows nd nf data flags = Ok data'.
Proof.
  induction data as [|d data IH]; intros flags L F1 F2; [now exists []|]. destruct flags as [|f flags]; [now exists []|].
  inversion F1; subst. inversion F2; subst. cbn. destruct (flag_row_ok (length d) (length f) d f) as (d' & -> & _); trivial. cbn.
  destruct (IH flags) as [r ->]; trivial. cbn. eauto.
Qed.

Lemma flagged_twice data flags d1 d2 : flagged data flags d1 -> flagged d1 flags d2 -> flagged data flags d2.
Proof.
  intros [L1 F1] [L2 F2]. split; [congruence|]. intros i d E. destruct (F1 i d E) as (d' & E1 & Ld & N1).
  destruct (F2 i d' E1) as (d2' & E2 & Ld2 & N2). exists d2'. split; trivial. split; [congruence|]. intros j x Ej.
  rewrite (N2 j _ (N1 j x Ej)). now destruct (nth j (nth i flags []) false).
Qed.

(** the named complex columns of a table with [flags] *)
Definition column_of (cols : columns) (flags : list (list bool)) (n : string) : Prop :=
  match cols n with Some d => length d = length flags | None => True end.

Lemma flag_columns_spec flags names : forall cols cols', (forall n, column_of cols flags n) -> flag_columns names cols flags = Ok cols' ->
  forall n, (In n names /\ n <> "WEIGHT_SPECTRUM"%string -> exists d d', cols n = Some d /\ cols' n = Some d' /\ flagged d flags d') /\
            (~ In n names \/ n = "WEIGHT_SPECTRUM"%string -> cols' n = cols n).
Proof.
  induction names as [|m names IH]; intros cols cols' HC H n; cbn in H.
  - injection H as <-. split; [intros [[] _]|trivial].
  - destruct (String.eqb_spec m "WEIGHT_SPECTRUM") as [Em|Em].
    + cbn in H. destruct (IH _ _ HC H n) as [A B]. split.
      * intros [[->|I] Hn]; [contradiction|now apply A].
      * intros [N|N]; apply B; [left; intros I; apply N; now right|now right].
    + destruct (cols m) as [d|] eqn:Ed; [|discriminate]. cbn in H.
      destruct (flag_column d flags) as [d'| |] eqn:Ef; try discriminate. cbn in H.
      assert (G : flagged d flags d').
      { specialize (HC m). unfold column_of in HC. rewrite Ed in HC. unfold flag_column in Ef. destruct d as [|d0 d]; [discriminate|].
        destruct flags as [|f0 flags]; [discriminate|]. now apply flag_rows_spec in Ef. }
      assert (HC' : forall n, column_of (set_column cols m d') flags n).
      { intros k. specialize (HC k). unfold column_of, set_column in *. destruct (String.eqb_spec k m) as [->|]; [|trivial].
        rewrite Ed in HC. destruct G. congruence. }
      destruct (IH _ _ HC' H n) as [A B]. unfold set_column in A, B. destruct (String.eqb_spec n m) as [->|Nm].
      * split; [|intros [N|N]; [exfalso; apply N; now left|contradiction]]. intros _.
        destruct (in_dec string_dec m names) as [I|I].
        -- destruct (A (conj I Em)) as (d1 & d2 & E1 & E2 & F). injection E1 as <-. exists d, d2. split; trivial. split; trivial.
           eapply flagged_twice; eauto.
        -- exists d, d'. split; trivial. split; trivial. apply B. now left.
      * split.
        -- intros [[->|I] Hn]; [contradiction|now apply A].
        -- intros [N|N]; apply B; [left; intros I; apply N; now right|now right].
Qed.

Lemma flag_columns_total flags names : flags <> [] -> forall nf, Forall (fun f => length f = nf) flags ->
  forall cols, (forall n, In n names -> n <> "WEIGHT_SPECTRUM"%string ->
    exists d, cols n = Some d /\ length d = length flags /\ Forall (fun r => length r = nf) d) ->
  exists cols', flag_columns names cols flags = Ok cols'.
Proof.
  intros Nf nf Ff. induction names as [|m names IH]; intros cols HC; [now exists cols|]. cbn.
  destruct (String.eqb_spec m "WEIGHT_SPECTRUM") as [Em|Em].
  - cbn. apply IH. intros n I. apply HC. now right.
  - destruct (HC m (or_introl eq_refl) Em) as (d & Ed & L & Fd). rewrite Ed.
    assert (exists d', flag_column d flags = Ok d' /\ length d' = length flags /\ Forall (fun r => length r = nf) d') as (d' & E & L' & Fd').
    { unfold flag_column. destruct d as [|d0 d]; [destruct flags; [contradiction|discriminate]|]. destruct flags as [|f0 fl]; [contradiction|].
      assert (length d0 = nf) as -> by (inversion Fd; trivial). assert (length f0 = nf) as -> by (inversion Ff; trivial).
      destruct (flag_rows_total nf nf (d0 :: d) (f0 :: fl)) as [d' E]; trivial.
      exists d'. rewrite E. split; trivial. apply flag_rows_spec in E; trivial. destruct E as [L' N]. split; [congruence|].
      apply Forall_forall. intros x I. apply In_nth_error in I as [i Ei].
      assert (i < length (d0 :: d))%nat by (rewrite <- L'; apply nth_error_Some; congruence).
      destruct (nth_error (d0 :: d) i) as [y|] eqn:Ey; [|apply nth_error_None in Ey; lia].
      destruct (N i y Ey) as (y' & Ey' & Ly & _). rewrite Ei in Ey'. injection Ey' as <-. rewrite Ly.
      rewrite Forall_forall in Fd. apply nth_error_In in Ey. now apply Fd. }
    rewrite E. cbn. apply IH. intros n I Hn. unfold set_column. destruct (String.eqb_spec n m); [subst; eauto|]. apply HC; trivial. now right.
Qed.

(** ** Command line *)
Section Cmd.
Context (atoi : string -> Z) (atof : string -> f64).

(** effect of one option on the variables of the program *)
Definition eff (x : opt) (o : options) : options :=
  match x with
  | OBits v => Options (o_distribution o) (o_normalization o) (o_reorder o) (atoi v mod 2 ^ 32) (o_weight_bits o) (o_truncation o) (o_static o) (o_columns o)
  | OWeightBits v => Options (o_distribution o) (o_normalization o) (o_reorder o) (o_bits o) (atoi v mod 2 ^ 32) (o_truncation o) (o_static o) (o_columns o)
  | OReorder => Options (o_distribution o) (o_normalization o) true (o_bits o) (o_weight_bits o) (o_truncation o) (o_static o) (o_columns o)
  | OGaussian => Options Gaussian (o_normalization o) (o_reorder o) (o_bits o) (o_weight_bits o) (o_truncation o) (o_static o) (o_columns o)
  | OUniform => Options Uniform (o_normalization o) (o_reorder o) (o_bits o) (o_weight_bits o) (o_truncation o) (o_static o) (o_columns o)
  | OStudent => Options StudentsT (o_normalization o) (o_reorder o) (o_bits o) (o_weight_bits o) (o_truncation o) (o_static o) (o_columns o)
  | OTrunc v => Options TruncatedGaussian (o_normalization o) (o_reorder o) (o_bits o) (o_weight_bits o) (atof v) (o_static o) (o_columns o)
  | OColumn v => Options (o_distribution o) (o_normalization o) (o_reorder o) (o_bits o) (o_weight_bits o) (o_truncation o) (o_static o) (o_columns o ++ [v])
  | ORF => Options (o_distribution o) RF (o_reorder o) (o_bits o) (o_weight_bits o) (o_truncation o) (o_static o) (o_columns o)
  | OAF => Options (o_distribution o) AF (o_reorder o) (o_bits o) (o_weight_bits o) (o_truncation o) (o_static o) (o_columns o)
  | ORow => Options (o_distribution o) Row (o_reorder o) (o_bits o) (o_weight_bits o) (o_truncation o) (o_static o) (o_columns o)
  | OStatic => Options (o_distribution o) (o_normalization o) (o_reorder o) (o_bits o) (o_weight_bits o) (o_truncation o) true (o_columns o)
  end%Z.

Lemma parse_one x fuel rest o : parse atoi atof (S fuel) (written x ++ rest) o = parse atoi atof fuel rest (eff x o).
Proof. destruct x; reflexivity. Qed.

Lemma parse_all l : forall fuel rest o, (length l <= fuel)%nat ->
  parse atoi atof fuel (flat_map written l ++ rest) o = parse atoi atof (fuel - length l) rest (fold_left (fun o x => eff x o) l o).
Proof.
  induction l as [|x l IH]; intros fuel rest o L; cbn [flat_map fold_left length]; [now rewrite Nat.sub_0_r|].
  destruct fuel as [|fuel]; [cbn in L; lia|]. rewrite <- app_assoc, parse_one, IH by (cbn in L; lia). reflexivity.
Qed.

Lemma written_length l : (length l <= length (flat_map written l))%nat.
Proof. induction l as [|x l IH]; cbn; [lia|]. rewrite app_length. destruct x; cbn; lia. Qed.

(** every argument list starts with options and then has no more arguments, a
    path, an option that lacks its value, or an unknown option *)
Lemma arguments args : exists l rest, args = flat_map written l ++ rest /\
  (rest = [] \/ (exists p r, rest = p :: r /\ ~ dashed p) \/ (exists a, rest = [a] /\ cut_off a) \/ (exists a r, rest = a :: r /\ dashed a /\ ~ known a)).
Proof.
  assert (G : forall n args, (length args <= n)%nat -> exists l rest, args = flat_map written l ++ rest /\
    (rest = [] \/ (exists p r, rest = p :: r /\ ~ dashed p) \/ (exists a, rest = [a] /\ cut_off a) \/ (exists a r, rest = a :: r /\ dashed a /\ ~ known a))); [|eauto].
  clear args. induction n as [|n IH]; intros args L; [destruct args; [|cbn in L; lia]; exists [], []; cbn; auto|].
  destruct args as [|a args]; [exists [], []; cbn; auto|].
  assert (D : dashed a \/ ~ dashed a).
  { destruct a as [|c p]; [right; intros [p H]; discriminate|]. destruct (Ascii.eqb_spec c "-"%char) as [->|N]; [left; now exists p|].
    right. intros [q H]. injection H as -> _. contradiction. }
  destruct D as [D|D]; [|exists [], (a :: args); cbn; split; [trivial|]; right; left; eauto].
  destruct (in_dec string_dec a ["-data-bit-rate"; "-weight-bit-rate"; "-truncgaus"; "-column"; "-reorder"; "-gaussian"; "-uniform"; "-studentt";
        "-rfnormalization"; "-afnormalization"; "-rownormalization"; "-static-seed"]%string) as [K|K];
    [|exists [], (a :: args); cbn -[known]; split; [trivial|]; right; right; right; eauto].
  assert (S1 : forall x r, a :: args = written x ++ r -> (length r <= n)%nat -> exists l rest, a :: args = flat_map written l ++ rest /\
    (rest = [] \/ (exists p r, rest = p :: r /\ ~ dashed p) \/ (exists a, rest = [a] /\ cut_off a) \/ (exists a r, rest = a :: r /\ dashed a /\ ~ known a))).
  { intros x r E Lr. destruct (IH r Lr) as (l & rest & E2 & C). exists (x :: l), rest. split; [|trivial]. cbn [flat_map]. rewrite E, E2. now rewrite app_assoc. }
  cbn in L. assert (C4 : cut_off a \/ exists x, written x = [a]).
  { unfold cut_off. cbn in K |- *. repeat (destruct K as [<-|K]; [first [left; tauto | right; (now exists OReorder) || (now exists OGaussian) || (now exists OUniform) ||
      (now exists OStudent) || (now exists ORF) || (now exists OAF) || (now exists ORow) || (now exists OStatic)]|]). destruct K. }
  destruct C4 as [C|[x Ex]].
  - destruct args as [|v args].
    + exists [], [a]. cbn -[cut_off]. split; [trivial|]. right; right; left. eauto.
    + assert (exists x, written x = [a; v]) as [x Ex].
      { cbn in C. destruct C as [<-|[<-|[<-|[<-|[]]]]]; [now exists (OBits v)|now exists (OWeightBits v)|now exists (OTrunc v)|now exists (OColumn v)]. }
      apply (S1 x args); [now rewrite Ex|cbn in L; lia].
  - apply (S1 x args); [now rewrite Ex|lia].
Qed.

Lemma dashed_option a : dashed a -> exists p, is_option a = Some p.
Proof. intros [p ->]. now exists p. Qed.
Lemma not_dashed a : ~ dashed a -> is_option a = None.
Proof. intros H. destruct a as [|c p]; trivial. cbn. destruct (Ascii.eqb_spec c "-"%char) as [->|]; trivial. destruct H. now exists p. Qed.

Lemma parse_stop fuel p r o : ~ dashed p -> parse atoi atof (S fuel) (p :: r) o = Ok (o, p :: r).
Proof. intros H. cbn -[String.eqb]. now rewrite (not_dashed p H). Qed.

Lemma parse_cut fuel a o : cut_off a -> parse atoi atof (S fuel) [a] o = UB.
Proof. intros C. cbn in C. destruct C as [<-|[<-|[<-|[<-|[]]]]]; reflexivity. Qed.

Lemma parse_unknown fuel a r o : dashed a -> ~ known a -> parse atoi atof (S fuel) (a :: r) o = Throw.
Proof.
  intros [p ->] K. cbn [parse is_option]. change (Ascii.eqb "-" "-") with true. cbv match.
  assert (G : forall q, In (String "-" q) ["-data-bit-rate"; "-weight-bit-rate"; "-truncgaus"; "-column"; "-reorder"; "-gaussian"; "-uniform"; "-studentt";
        "-rfnormalization"; "-afnormalization"; "-rownormalization"; "-static-seed"]%string -> String.eqb p q = false).
  { intros q I. destruct (String.eqb_spec p q) as [->|]; trivial. now destruct K. }
  repeat rewrite G by (cbn; tauto). reflexivity.
Qed.

Lemma latest_eff {X} (f : opt -> option X) (g : options -> X) : (forall x o, g (eff x o) = match f x with Some y => y | None => g o end) ->
  forall l o, g (fold_left (fun o x => eff x o) l o) = latest f (g o) l.
Proof. intros H. induction l as [|x l IH]; intros o; cbn; trivial. rewrite IH, H. reflexivity. Qed.

Lemma flag_eff (x0 : opt) (g : options -> bool) : (forall x o, g (eff x o) = true <-> x = x0 \/ g o = true) ->
  forall l o, g (fold_left (fun o x => eff x o) l o) = true <-> In x0 l \/ g o = true.
Proof. intros H. induction l as [|x l IH]; intros o; cbn; [tauto|]. rewrite IH, H. intuition. Qed.

Lemma columns_eff l : forall o, o_columns (fold_left (fun o x => eff x o) l o) = o_columns o ++ flat_map (fun x => match x with OColumn v => [v] | _ => [] end) l.
Proof. induction l as [|x l IH]; intros o; cbn; [now rewrite app_nil_r|]. rewrite IH. destruct x; cbn; trivial. now rewrite <- app_assoc. Qed.

Lemma parse_line_ok l path rest : ~ dashed path ->
  exists o, parse_line atoi atof (flat_map written l ++ path :: rest) = Ok (o, path) /\ settings atoi atof l o.
Proof.
  intros D. unfold parse_line. pose proof (written_length l).
  rewrite parse_all by (rewrite app_length; cbn; lia).
  replace (S (length (flat_map written l ++ path :: rest)) - length l)%nat with (S (length (flat_map written l ++ path :: rest) - length l)) by (rewrite app_length; lia).
  rewrite parse_stop by trivial. cbn [bind]. eexists. split; [reflexivity|].
  unfold settings. cbn [o_bits o_weight_bits o_distribution o_normalization o_truncation o_reorder o_static o_columns].
  split; [now rewrite (latest_eff (fun x => match x with OBits v => Some (atoi v mod 2 ^ 32)%Z | _ => None end) o_bits) by (now intros []) |].
  split; [now rewrite (latest_eff (fun x => match x with OWeightBits v => Some (atoi v mod 2 ^ 32)%Z | _ => None end) o_weight_bits) by (now intros []) |].
  split; [now rewrite (latest_eff (fun x => match x with OGaussian => Some Gaussian | OUniform => Some Uniform
    | OStudent => Some StudentsT | OTrunc _ => Some TruncatedGaussian | _ => None end) o_distribution) by (now intros []) |].
  split; [now rewrite (latest_eff (fun x => match x with ORF => Some RF | OAF => Some AF | ORow => Some Row | _ => None end) o_normalization) by (now intros []) |].
  split; [now rewrite (latest_eff (fun x => match x with OTrunc v => Some (atof v) | _ => None end) o_truncation) by (now intros []) |].
  split; [rewrite (flag_eff OReorder o_reorder) by (intros [] ?; cbn; intuition discriminate); cbn; intuition discriminate|].
  split; [rewrite (flag_eff OStatic o_static) by (intros [] ?; cbn; intuition discriminate); cbn; intuition discriminate|].
  cbn zeta. rewrite columns_eff. change (o_columns defaults) with (@nil string). cbn [app].
  now destruct (flat_map (fun x : opt => match x with OColumn v => [v] | _ => [] end) l).
Qed.

Lemma parse_line_bad l rest :
  (rest = [] \/ (exists a, rest = [a] /\ cut_off a) -> parse_line atoi atof (flat_map written l ++ rest) = UB) /\
  ((exists a r, rest = a :: r /\ dashed a /\ ~ known a) -> parse_line atoi atof (flat_map written l ++ rest) = Throw).
Proof.
  unfold parse_line. pose proof (written_length l). rewrite parse_all by (rewrite app_length; lia).
  replace (S (length (flat_map written l ++ rest)) - length l)%nat with (S (length (flat_map written l ++ rest) - length l)) by (rewrite app_length; lia).
  split.
  - intros [->|(a & -> & C)]; [reflexivity|]. now rewrite parse_cut.
  - intros (a & r & -> & D & K). now rewrite parse_unknown.
Qed.

Lemma command_line_some args : args <> [] -> command_line atoi atof args = do r <- parse_line atoi atof args; Ok (Some r).
Proof. now destruct args. Qed.

Lemma command_line_ok l path rest : ~ dashed path ->
  exists o, command_line atoi atof (flat_map written l ++ path :: rest) = Ok (Some (o, path)) /\ settings atoi atof l o.
Proof.
  intros D. destruct (parse_line_ok l path rest D) as (o & E & S). exists o. split; trivial. rewrite command_line_some, E; [reflexivity|]. now destruct (flat_map written l).
Qed.

Lemma command_line_bad l rest : flat_map written l ++ rest <> [] ->
  (rest = [] \/ (exists a, rest = [a] /\ cut_off a) -> command_line atoi atof (flat_map written l ++ rest) = UB) /\
  ((exists a r, rest = a :: r /\ dashed a /\ ~ known a) -> command_line atoi atof (flat_map written l ++ rest) = Throw).
Proof. intros Ne. destruct (parse_line_bad l rest) as (A & B). rewrite command_line_some by exact Ne. split; intros H; [now rewrite A|now rewrite B]. Qed.

End Cmd.

(** ** Replacing columns *)
Section Tab.
Context {V : Type} (vshape : V -> list nat) (store : string -> V -> V) (nrow : nat) (removed : list (option V) -> list (option V)) (committed : bool).
Implicit Type t : table V.

Lemma upd_same t n c : upd_table t n c n = c.
Proof. unfold upd_table. now rewrite String.eqb_refl. Qed.
Lemma upd_other t n c m : m <> n -> upd_table t n c m = t m.
Proof. intros H. unfold upd_table. destruct (String.eqb_spec m n); congruence. Qed.

Lemma temp_inj a b : temp_name a = temp_name b -> a = b.
Proof. unfold temp_name. cbn. now injection 1. Qed.

Lemma string_app_length a b : String.length (a ++ b) = (String.length a + String.length b)%nat.
Proof. induction a; cbn; auto. Qed.
Lemma temp_neq a : temp_name a <> a.
Proof. intros H. apply (f_equal String.length) in H. unfold temp_name in H. rewrite string_app_length in H. cbn in H. lia. Qed.

(** a column with contents of shape [sh] in each of at least one rows *)
Definition full (sh : list nat) (c : column V) (vs : list V) : Prop :=
  c_rows c = map Some vs /\ vs <> [] /\ Forall (fun v => vshape v = sh) vs.

Lemma copy_full mgr sh vs : Forall (fun v => vshape v = sh) vs -> copyValues vshape store mgr sh (map Some vs) = Ok (map Some (map (store mgr) vs)).
Proof.
  induction 1 as [|v vs Hv F IH]; trivial. cbn [map copyValues]. destruct (list_eq_dec Nat.eq_dec (vshape v) sh); [|contradiction].
  rewrite IH. reflexivity.
Qed.

Lemma prepare_spec sh names : forall t b shape, NoDup names ->
  (forall n, In n names -> exists c vs, t n = Some c /\ full sh c vs /\ c_manager c <> "DyscoStMan"%string) ->
  (forall n, In n names -> t (temp_name n) = None) ->
  exists t', prepare_all vshape names t b shape = Ok (t', (match names with [] => b | _ => true end), match names with [] => shape | _ => sh end) /\
    (forall n, In n names -> t' n = None /\ t' (temp_name n) = t n) /\
    (forall m, ~ In m names -> ~ In m (map temp_name names) -> t' m = t m).
Proof.
  induction names as [|n names IH]; intros t b shape ND HC HT; [exists t; cbn; repeat split; trivial; easy|].
  inversion ND as [|? ? Nn ND']; subst. destruct (HC n (or_introl eq_refl)) as (c & vs & E & (Er & Ev & Es) & Em).
  set (t1 := upd_table (upd_table t n None) (temp_name n) (Some c)).
  assert (P : PrepareReplacingColumn vshape t n "DyscoStMan" shape = Ok (t1, true, sh)).
  { unfold PrepareReplacingColumn. rewrite E. destruct (String.eqb_spec (c_manager c) "DyscoStMan"); [contradiction|].
    unfold renameColumn. rewrite E, (HT n (or_introl eq_refl)). cbn [bind]. rewrite Er. destruct vs as [|v vs]; [contradiction|]. cbn.
    inversion Es; subst. reflexivity. }
  assert (Ht : forall m, In m names -> t1 m = t m).
  { intros m I. unfold t1. rewrite upd_other, upd_other; trivial; [intros ->; contradiction|].
    intros ->. destruct (HC (temp_name n) (or_intror I)) as (c' & vs' & E' & _). now rewrite (HT n (or_introl eq_refl)) in E'. }
  assert (Ht' : forall m, In m names -> t1 (temp_name m) = None).
  { intros m I. unfold t1. rewrite upd_other by (intros H; apply temp_inj in H; subst; contradiction).
    unfold upd_table. destruct (String.eqb (temp_name m) n); trivial. apply HT. now right. }
  destruct (IH t1 true sh) as (t' & Et & A & B); trivial.
  { intros m I. rewrite Ht by trivial. apply HC. now right. }
  exists t'. cbn [prepare_all]. rewrite P. cbn [bind orb]. rewrite Et. split; [destruct names; reflexivity|].
  split.
  - intros m [<-|I].
    + assert (N1 : ~ In n (map temp_name names)).
      { intros I. apply in_map_iff in I as (k & Ek & I). specialize (HT k (or_intror I)). rewrite Ek, E in HT. discriminate. }
      assert (N2 : ~ In (temp_name n) names).
      { intros I. destruct (HC (temp_name n) (or_intror I)) as (c' & vs' & E' & _). now rewrite (HT n (or_introl eq_refl)) in E'. }
      assert (N3 : ~ In (temp_name n) (map temp_name names)).
      { intros I. apply in_map_iff in I as (k & Ek & I). apply temp_inj in Ek as ->. contradiction. }
      rewrite (B n Nn N1), (B (temp_name n) N2 N3). unfold t1. rewrite upd_same. split; [|congruence].
      rewrite upd_other by (intros H; symmetry in H; now apply temp_neq in H). apply upd_same.
    + destruct (A m I) as [A1 A2]. split; trivial. rewrite A2. now apply Ht.
  - intros m N1 N2. rewrite B; [|intros I; apply N1; now right|intros I; apply N2; now right].
    unfold t1. rewrite upd_other, upd_other; trivial; intros ->; [apply N1|apply N2]; now left.
Qed.

Lemma create_spec sh names : forall t, NoDup names -> (forall n, In n names -> t n = None) ->
  exists t', create_all nrow false names sh t = Ok t' /\ (forall n, In n names -> t' n = Some (Col "DyscoStMan" sh (repeat None nrow))) /\
    (forall m, ~ In m names -> t' m = t m).
Proof.
  unfold create_all. induction names as [|n names IH]; intros t ND H; [exists t; cbn; repeat split; trivial; easy|].
  inversion ND as [|? ? Nn ND']; subst. cbn [foldM]. unfold addColumn at 1. rewrite (H n (or_introl eq_refl)). cbn [bind].
  destruct (IH (upd_table t n (Some (Col "DyscoStMan" sh (repeat None nrow)))) ND') as (t' & E & A & B).
  { intros m I. rewrite upd_other; [apply H; now right|]. intros ->. contradiction. }
  exists t'. split; trivial. split.
  - intros m [<-|I]; [|now apply A]. rewrite B by trivial. apply upd_same.
  - intros m N. rewrite B; [apply upd_other|]; intros I; apply N; [now left|now right].
Qed.

Lemma move_spec names : forall t (f : string -> list V) mgr sh, NoDup names ->
  (forall n, In n names -> Forall (fun v => vshape v = sh) (f n) /\ (exists c, t (temp_name n) = Some c /\ c_manager c <> "DyscoStMan"%string /\ c_rows c = map Some (f n)) /\ exists r, t n = Some (Col mgr sh r)) ->
  (forall n m, In n names -> In m names -> temp_name n <> m) ->
  exists t', move_all vshape store removed names t = Ok t' /\
    (forall n, In n names -> t' n = Some (Col mgr sh (map Some (map (store mgr) (f n)))) /\ t' (temp_name n) = None) /\
    (forall m, ~ In m names -> ~ In m (map temp_name names) -> t' m = t m).
Proof.
  unfold move_all. induction names as [|n names IH]; intros t f mgr sh ND H HT; [exists t; cbn; repeat split; trivial; easy|].
  inversion ND as [|? ? Nn ND']; subst. cbn [foldM]. destruct (H n (or_introl eq_refl)) as (Fs & (c & Ec & Em & Er) & r & En).
  set (t1 := upd_table (upd_table t n (Some (Col mgr sh (map Some (map (store mgr) (f n)))))) (temp_name n) None).
  assert (M : MoveColumnData vshape store removed t n = Ok t1).
  { unfold MoveColumnData. rewrite Ec, En. cbn [c_manager c_shape]. rewrite Er, copy_full by trivial. cbn [bind]. unfold removeColumn.
    rewrite upd_other by apply temp_neq. rewrite Ec. unfold is_dysco. now rewrite (proj2 (String.eqb_neq _ _) Em). }
  rewrite M. cbn [bind].
  destruct (IH t1 f mgr sh ND') as (t' & E & A & B).
  { intros m I. destruct (H m (or_intror I)) as (F & (c' & Ec' & Em' & Er') & r' & En'). split; trivial. split.
    - exists c'. split; [|now split]. unfold t1. rewrite upd_other by (intros X; apply temp_inj in X; subst; contradiction).
      rewrite upd_other; trivial. apply HT; [now right|now left].
    - exists r'. unfold t1. rewrite upd_other, upd_other; trivial; [intros ->; contradiction|]. intros X. symmetry in X. revert X. apply HT; [now left|now right]. }
  { intros a b Ia Ib. apply HT; now right. }
  exists t'. split; trivial. split.
  - intros m [<-|I]; [|now apply A].
    assert (N1 : ~ In n (map temp_name names)).
    { intros I. apply in_map_iff in I as (k & Ek & I). revert Ek. apply HT; [now right|now left]. }
    assert (N2 : ~ In (temp_name n) names). { intros I. apply (HT n (temp_name n)); trivial; [now left|now right]. }
    assert (N3 : ~ In (temp_name n) (map temp_name names)).
    { intros I. apply in_map_iff in I as (k & Ek & I). apply temp_inj in Ek as ->. contradiction. }
    rewrite (B n Nn N1), (B (temp_name n) N2 N3). unfold t1. rewrite upd_same. split; trivial.
    rewrite upd_other by (intros X; symmetry in X; now apply temp_neq in X). apply upd_same.
  - intros m N1 N2. rewrite B; [|intros I; apply N1; now right|intros I; apply N2; now right].
    unfold t1. rewrite upd_other, upd_other; trivial; intros ->; [apply N1|apply N2]; now left.
Qed.

Lemma replace_ok sh names (t : table V) (f : string -> list V) : NoDup names -> names <> [] ->
  (forall n, In n names -> exists c, t n = Some c /\ full sh c (f n) /\ c_manager c <> "DyscoStMan"%string) ->
  (forall n, In n names -> t (temp_name n) = None) ->
  exists t', replace_columns vshape store nrow removed false names t = Ok t' /\
    (forall n, In n names -> t' n = Some (Col "DyscoStMan" sh (map Some (map (store "DyscoStMan"%string) (f n))))) /\
    (forall m, ~ In m names -> t' m = t m).
Proof.
  intros ND NE HC HT.
  destruct (prepare_spec sh names t false [] ND) as (t1 & E1 & A1 & B1).
  { intros n I. destruct (HC n I) as (c & E & F & M). exists c, (f n). auto. } { trivial. }
  assert (Hno : forall n m, In n names -> In m names -> temp_name n <> m).
  { intros n m I J X. destruct (HC m J) as (c & E & _). rewrite <- X, HT in E by trivial. discriminate. }
  destruct (create_spec sh names t1 ND) as (t2 & E2 & A2 & B2). { intros n I. now apply A1. }
  destruct (move_spec names t2 f "DyscoStMan" sh ND) as (t3 & E3 & A3 & B3); trivial.
  { intros n I. destruct (HC n I) as (c & E & (Er & Ev & Es) & M). split; trivial. split.
    - exists c. split; [|now split]. rewrite B2; [rewrite <- E; now apply A1|]. intros J. now apply (Hno n (temp_name n) I J).
    - exists (repeat None nrow). now apply A2. }
  exists t3. unfold replace_columns. rewrite E1. destruct names as [|n0 names']; [contradiction|]. cbn [bind]. rewrite E2. cbn [bind]. split; trivial.
  split; [intros n I; now apply A3|]. intros m N. destruct (in_dec string_dec m (map temp_name (n0 :: names'))) as [I|I].
  - apply in_map_iff in I as (k & <- & I). rewrite HT by trivial. now apply A3.
  - now rewrite B3, B2, B1.
Qed.

(** decompress, one column *)
Lemma init_dysco defm sh (t : table V) n c vs : t n = Some c -> full sh c vs -> c_manager c = "DyscoStMan"%string -> t (temp_name n) = None ->
  InitColumnWithDefaultStMan vshape nrow defm t n =
    Ok (upd_table (upd_table (upd_table t n None) (temp_name n) (Some c)) n (Some (Col defm sh (repeat None nrow))), true).
Proof.
  intros E (Er & Ev & Es) Em HT. unfold InitColumnWithDefaultStMan. rewrite E, Em, String.eqb_refl. unfold renameColumn. rewrite E, HT. cbn [bind].
  rewrite Er. destruct vs as [|v vs]; [contradiction|]. cbn. inversion Es; subst. unfold addColumn.
  rewrite upd_other by (intros X; symmetry in X; now apply temp_neq in X). rewrite upd_same. reflexivity.
Qed.

(** the table after the copy of a compressed column, and the removal of the old one *)
Definition after (t : table V) (n : string) : table V :=
  upd_table (fun m => match t m with Some c' => Some (if is_dysco c' then Col (c_manager c') (c_shape c') (removed (c_rows c')) else c') | None => None end) n None.

Lemma move_one (t : table V) n c vs mgr sh r : t (temp_name n) = Some c -> c_manager c = "DyscoStMan"%string -> c_rows c = map Some vs -> Forall (fun v => vshape v = sh) vs ->
  t n = Some (Col mgr sh r) ->
  MoveColumnData vshape store removed t n = Ok (after (upd_table t n (Some (Col mgr sh (map Some (map (store mgr) vs))))) (temp_name n)).
Proof.
  intros Ec Em Er Fs En. unfold MoveColumnData. rewrite Ec, En. cbn [c_manager c_shape]. rewrite Er, copy_full by trivial. cbn [bind]. unfold removeColumn.
  rewrite upd_other by apply temp_neq. rewrite Ec. unfold is_dysco at 1. now rewrite Em, String.eqb_refl.
Qed.

Lemma decompress_ok defm sh1 sh2 (t : table V) c1 c2 v1 v2 w2 : defm <> "DyscoStMan"%string ->
  t "DATA"%string = Some c1 -> full sh1 c1 v1 -> c_manager c1 = "DyscoStMan"%string ->
  t "WEIGHT_SPECTRUM"%string = Some c2 -> full sh2 c2 v2 -> c_manager c2 = "DyscoStMan"%string ->
  removed (c_rows c2) = map Some w2 -> Forall (fun v => vshape v = sh2) w2 ->
  t "TEMP_DATA"%string = None -> t "TEMP_WEIGHT_SPECTRUM"%string = None ->
  exists t', decompress vshape store nrow removed defm t = Ok t' /\
    t' "DATA"%string = Some (Col defm sh1 (map Some (map (store defm) v1))) /\
    t' "WEIGHT_SPECTRUM"%string = Some (Col defm sh2 (map Some (map (store defm) w2))) /\
    forall m, m <> "DATA"%string -> m <> "WEIGHT_SPECTRUM"%string -> (forall c, t m = Some c -> c_manager c <> "DyscoStMan"%string) -> t' m = t m.
Proof.
  intros Nd E1 F1 M1 E2 F2 M2 Rw Sw T1 T2. unfold decompress. rewrite (init_dysco defm sh1 t "DATA" c1 v1) by trivial. cbn [bind].
  rewrite (init_dysco defm sh2 _ "WEIGHT_SPECTRUM" c2 v2) by trivial. cbn [bind].
  destruct F1 as (R1 & _ & S1), F2 as (R2 & _ & S2).
  rewrite (move_one _ "DATA" c1 v1 defm sh1 (repeat None nrow)) by trivial. cbn [bind].
  rewrite (move_one _ "WEIGHT_SPECTRUM" (Col (c_manager c2) (c_shape c2) (removed (c_rows c2))) w2 defm sh2 (repeat None nrow)).
  - eexists. split; [reflexivity|]. unfold after, upd_table. cbn. unfold is_dysco. cbn [c_manager]. rewrite ?(proj2 (String.eqb_neq _ _) Nd). cbn [c_manager]. rewrite ?(proj2 (String.eqb_neq _ _) Nd). split; [reflexivity|]. split; [reflexivity|].
    intros m N1 N2 Hm.
    destruct (String.eqb_spec m (temp_name "WEIGHT_SPECTRUM")) as [->|]; [now rewrite <- T2|]. change ("TEMP_WEIGHT_SPECTRUM"%string) with (temp_name "WEIGHT_SPECTRUM"). 
    destruct (String.eqb_spec m (temp_name "WEIGHT_SPECTRUM")); [contradiction|].
    destruct (String.eqb_spec m "WEIGHT_SPECTRUM"); [contradiction|].
    change ("TEMP_DATA"%string) with (temp_name "DATA"). destruct (String.eqb_spec m (temp_name "DATA")) as [->|]; [now rewrite <- T1|].
    destruct (String.eqb_spec m "DATA"); [contradiction|]. destruct (t m) as [c|]; trivial. specialize (Hm c eq_refl). rewrite ?(proj2 (String.eqb_neq _ _) Hm). now rewrite ?(proj2 (String.eqb_neq _ _) Hm).
  - unfold after, upd_table. cbn. unfold is_dysco. now rewrite M2.
  - exact M2.
  - exact Rw.
  - exact Sw.
  - unfold after, upd_table. cbn. unfold is_dysco. cbn [c_manager]. now rewrite (proj2 (String.eqb_neq _ _) Nd).
Qed.

(** one compressed column only *)
Lemma decompress_data defm sh1 (t : table V) c1 c2 v1 : defm <> "DyscoStMan"%string ->
  t "DATA"%string = Some c1 -> full sh1 c1 v1 -> c_manager c1 = "DyscoStMan"%string ->
  t "WEIGHT_SPECTRUM"%string = Some c2 -> c_manager c2 <> "DyscoStMan"%string -> t "TEMP_DATA"%string = None ->
  exists t', decompress vshape store nrow removed defm t = Ok t' /\
    t' "DATA"%string = Some (Col defm sh1 (map Some (map (store defm) v1))) /\
    forall m, m <> "DATA"%string -> (forall c, t m = Some c -> c_manager c <> "DyscoStMan"%string) -> t' m = t m.
Proof.
  intros Nd E1 F1 M1 E2 M2 T1. unfold decompress. rewrite (init_dysco defm sh1 t "DATA" c1 v1) by trivial. cbn [bind]. unfold InitColumnWithDefaultStMan.
  replace (upd_table _ "DATA" _ "WEIGHT_SPECTRUM"%string) with (Some c2) by (unfold upd_table; cbn; now rewrite E2). rewrite (proj2 (String.eqb_neq _ _) M2). cbn [bind].
  destruct F1 as (R1 & _ & S1). rewrite (move_one _ "DATA" c1 v1 defm sh1 (repeat None nrow)) by trivial. cbn [bind].
  eexists. split; [reflexivity|]. unfold after, upd_table. cbn. unfold is_dysco. cbn [c_manager]. rewrite ?(proj2 (String.eqb_neq _ _) Nd). cbn [c_manager]. rewrite ?(proj2 (String.eqb_neq _ _) Nd). split; [reflexivity|].
  intros m N1 Hm. change ("TEMP_DATA"%string) with (temp_name "DATA"). destruct (String.eqb_spec m (temp_name "DATA")) as [->|]; [now rewrite <- T1|].
  destruct (String.eqb_spec m "DATA"); [contradiction|]. destruct (t m) as [c|]; trivial. specialize (Hm c eq_refl). now rewrite (proj2 (String.eqb_neq _ _) Hm).
Qed.

Lemma decompress_weights defm sh2 (t : table V) c1 c2 v2 : defm <> "DyscoStMan"%string ->
  t "DATA"%string = Some c1 -> c_manager c1 <> "DyscoStMan"%string ->
  t "WEIGHT_SPECTRUM"%string = Some c2 -> full sh2 c2 v2 -> c_manager c2 = "DyscoStMan"%string -> t "TEMP_WEIGHT_SPECTRUM"%string = None ->
  exists t', decompress vshape store nrow removed defm t = Ok t' /\
    t' "WEIGHT_SPECTRUM"%string = Some (Col defm sh2 (map Some (map (store defm) v2))) /\
    forall m, m <> "WEIGHT_SPECTRUM"%string -> (forall c, t m = Some c -> c_manager c <> "DyscoStMan"%string) -> t' m = t m.
Proof.
  intros Nd E1 M1 E2 F2 M2 T2. unfold decompress. unfold InitColumnWithDefaultStMan at 1. rewrite E1, (proj2 (String.eqb_neq _ _) M1). cbn [bind].
  rewrite (init_dysco defm sh2 _ "WEIGHT_SPECTRUM" c2 v2) by trivial. cbn [bind].
  destruct F2 as (R2 & _ & S2). rewrite (move_one _ "WEIGHT_SPECTRUM" c2 v2 defm sh2 (repeat None nrow)) by trivial.
  eexists. split; [reflexivity|]. unfold after, upd_table. cbn. unfold is_dysco. cbn [c_manager]. rewrite ?(proj2 (String.eqb_neq _ _) Nd). cbn [c_manager]. rewrite ?(proj2 (String.eqb_neq _ _) Nd). split; [reflexivity|].
  intros m N1 Hm. change ("TEMP_WEIGHT_SPECTRUM"%string) with (temp_name "WEIGHT_SPECTRUM"). destruct (String.eqb_spec m (temp_name "WEIGHT_SPECTRUM")) as [->|]; [now rewrite <- T2|].
  destruct (String.eqb_spec m "WEIGHT_SPECTRUM"); [contradiction|]. destruct (t m) as [c|]; trivial. specialize (Hm c eq_refl). now rewrite (proj2 (String.eqb_neq _ _) Hm).
Qed.
End Tab.

Section Mixed.
Context {V : Type} (vshape : V -> list nat) (store : string -> V -> V) (nrow : nat) (removed : list (option V) -> list (option V)) (committed : bool).

Lemma prepare_keeps names : forall (t : table V) b sh t' b' sh' n c, prepare_all vshape names t b sh = Ok (t', b', sh') ->
  t n = Some c -> c_manager c = "DyscoStMan"%string -> t' n = Some c.
Proof.
  induction names as [|m names IH]; intros t b sh t' b' sh' n c H E M; cbn in H; [now injection H as <- _ _|].
  destruct (PrepareReplacingColumn vshape t m "DyscoStMan" sh) as [[[t1 b1] sh1]| |] eqn:P; try discriminate. cbn in H.
  eapply IH; eauto. unfold PrepareReplacingColumn in P. destruct (t m) as [cm|] eqn:Em; [|discriminate].
  destruct (String.eqb_spec (c_manager cm) "DyscoStMan"); [now injection P as <- _ _|].
  unfold renameColumn in P. rewrite Em in P. destruct (t (temp_name m)) eqn:Et; [discriminate|]. cbn [bind] in P.
  destruct (shape0 vshape (c_rows cm)); try discriminate. injection P as <- _ _.
  rewrite upd_other by (intros ->; congruence). rewrite upd_other; [trivial|]. intros ->. congruence.
Qed.

Lemma prepare_flag names : forall (t : table V) b sh t' b' sh', prepare_all vshape names t b sh = Ok (t', b', sh') ->
  (b = true -> b' = true) /\ (forall m c, In m names -> t m = Some c -> c_manager c <> "DyscoStMan"%string -> b' = true).
Proof.
  induction names as [|m names IH]; intros t b sh t' b' sh' H; cbn in H; [injection H as _ <- _; split; trivial; easy|].
  destruct (PrepareReplacingColumn vshape t m "DyscoStMan" sh) as [[[t1 b1] sh1]| |] eqn:P; try discriminate. cbn in H.
  destruct (IH _ _ _ _ _ _ H) as [A B]. split; [intros ->; apply A, orb_true_r|].
  intros k c I E M. unfold PrepareReplacingColumn in P. destruct (t m) as [cm|] eqn:Em; [|discriminate].
  destruct (String.eqb_spec (c_manager cm) "DyscoStMan") as [D|D].
  - injection P as <- <- <-. destruct I as [->|I]; [rewrite Em in E; injection E as ->; contradiction|eauto].
  - destruct (renameColumn t (temp_name m) m); try discriminate. cbn in P. destruct (shape0 vshape (c_rows cm)); try discriminate. injection P as _ <- _.
    now apply A.
Qed.

Lemma create_exists names sh : forall (t : table V) n c, In n names -> t n = Some c -> create_all nrow committed names sh t = Throw.
Proof.
  unfold create_all. induction names as [|m names IH]; intros t n c I E; [easy|]. cbn. unfold addColumn at 1. destruct committed eqn:Ec; trivial.
  destruct (t m) as [cm|] eqn:Em; trivial. cbn. destruct I as [->|I]; [congruence|]. apply (IH _ n c I). rewrite upd_other; trivial. intros ->. congruence.
Qed.

Lemma mixed_fails names (t : table V) n m c c' : In n names -> In m names ->
  t n = Some c -> c_manager c = "DyscoStMan"%string -> t m = Some c' -> c_manager c' <> "DyscoStMan"%string ->
  replace_columns vshape store nrow removed committed names t = Throw.
Proof.
  intros In1 In2 E M E' M'. unfold replace_columns.
  assert (NU : prepare_all vshape names t false [] <> UB).
  { generalize false (@nil nat). clear. revert t. induction names as [|k names IH]; intros t b sh; cbn; [discriminate|].
    unfold PrepareReplacingColumn. destruct (t k) as [ck|] eqn:Ek; [|discriminate]. destruct (String.eqb (c_manager ck) "DyscoStMan"); [apply IH|].
    unfold renameColumn. rewrite Ek. destruct (t (temp_name k)); [discriminate|]. cbn. unfold shape0. destruct (c_rows ck) as [|[v|] l]; try discriminate. apply IH. }
  destruct (prepare_all vshape names t false []) as [[[t1 b] sh]| |] eqn:P; [|trivial|contradiction]. cbn [bind].
  destruct (prepare_flag _ _ _ _ _ _ _ P) as [_ A]. rewrite (A m c' In2 E' M').
  rewrite (create_exists names sh t1 n c In1); [trivial|]. eapply prepare_keeps; eauto.
Qed.

Lemma committed_fails names (t : table V) n c : In n names -> t n = Some c -> c_manager c <> "DyscoStMan"%string -> replace_columns vshape store nrow removed true names t = Throw.
Proof.
  intros In1 E M. unfold replace_columns.
  assert (NU : prepare_all vshape names t false [] <> UB).
  { generalize false (@nil nat). clear. revert t. induction names as [|k names IH]; intros t b sh; cbn; [discriminate|].
    unfold PrepareReplacingColumn. destruct (t k) as [ck|] eqn:Ek; [|discriminate]. destruct (String.eqb (c_manager ck) "DyscoStMan"); [apply IH|].
    unfold renameColumn. rewrite Ek. destruct (t (temp_name k)); [discriminate|]. cbn. unfold shape0. destruct (c_rows ck) as [|[v|] l]; try discriminate. apply IH. }
  destruct (prepare_all vshape names t false []) as [[[t1 b] sh]| |] eqn:P; [|trivial|contradiction]. cbn [bind].
  destruct (prepare_flag _ _ _ _ _ _ _ P) as [_ A]. rewrite (A n c In1 E M). destruct names; [destruct In1|reflexivity].
Qed.

Lemma decompress_no_weights defm sh (t : table V) c vs : t "DATA"%string = Some c -> full vshape sh c vs -> c_manager c = "DyscoStMan"%string ->
  t "TEMP_DATA"%string = None -> t "WEIGHT_SPECTRUM"%string = None ->
  decompress vshape store nrow removed defm t = Throw /\
  exists t1, InitColumnWithDefaultStMan vshape nrow defm t "DATA" = Ok (t1, true) /\
    t1 "DATA"%string = Some (Col defm sh (repeat None nrow)) /\ t1 "TEMP_DATA"%string = Some c.
Proof.
  intros E F M T W. unfold decompress. rewrite (init_dysco vshape nrow defm sh t "DATA" c vs) by trivial. cbn [bind]. split.
  - unfold InitColumnWithDefaultStMan, upd_table. cbn. now rewrite W.
  - eexists. split; [reflexivity|]. split; reflexivity.
Qed.
End Mixed.
