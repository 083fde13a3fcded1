(** Packing depends only on the symbols that fit: whatever follows the first [m]
    symbols (values left in the buffer, of any size), the packed bits of the
    first [m] symbols are the same. *)
From Verif Require Import Base BytePacker BitStream BytePackerProofs BytePackerWhole BytePackerTop.
From Coq Require Import ZifyBool ZifyNat ZifyN.
Local Open Scope N_scope.
Ltac Zify.zify_post_hook ::= Z.div_mod_to_equations.

Section Prefix.
Variable b : N.      (** bits per symbol *)
Variable m : nat.    (** symbols in common *)

(** two bytes at place [j] that agree on the bits of the first [m] symbols *)
Definition low_eq (j : nat) (x y : N) : Prop := forall k, 8 * N.of_nat j + k < b * N.of_nat m -> N.testbit x k = N.testbit y k.
Fixpoint lows (j : nat) (l l' : list N) : Prop :=
  match l, l' with
  | [], [] => True
  | x :: t, y :: t' => low_eq j x y /\ lows (S j) t t'
  | _, _ => False
  end.
Fixpoint highs (j : nat) (l l' : list N) : Prop :=   (* reversed: the head is at place j-1 *)
  match l, l', j with
  | [], [], O => True
  | x :: t, y :: t', S j => low_eq j x y /\ highs j t t'
  | _, _, _ => False
  end.

Fixpoint srcs (i : nat) (l l' : list N) : Prop :=
  match l, l' with
  | [], [] => True
  | x :: t, y :: t' => ((i < m)%nat -> x = y) /\ srcs (S i) t t'
  | _, _ => False
  end.

(** [k]: position in bits of the symbol minus that of the byte *)
Definition sim (k : Z) (p p' : ptrs) : Prop :=
  exists i j, (Z.of_N b * Z.of_nat i = 8 * Z.of_nat j + k)%Z /\
    length (sl p) = i /\ srcs i (sr p) (sr p') /\
    length (dl p) = j /\ highs j (dl p) (dl p') /\ lows j (dr p) (dr p') /\ fits 8 (dl p') /\ fits 8 (dr p').

Definition keeps (k : Z) (a : M) (k' : Z) : Prop :=
  forall p p' q, sim k p p' -> a p = Ok q -> exists q', a p' = Ok q' /\ sim k' q q'.
Definition keepsT (k : Z) (a : M) : Prop :=
  forall p p' q, sim k p p' -> a p = Ok q -> exists q' k', a p' = Ok q' /\ sim k' q q'.

Lemma k_seq k1 k2 k3 x y : keeps k1 x k2 -> keeps k2 y k3 -> keeps k1 (x ;; y) k3.
Proof.
  intros Hx Hy p p' q S H. unfold seqM in *. destruct (x p) as [r| |] eqn:E; cbn in H; try discriminate.
  destruct (Hx _ _ _ S E) as (r' & -> & S'). cbn. eauto.
Qed.
Lemma k_seqT k1 k2 x y : keeps k1 x k2 -> keepsT k2 y -> keepsT k1 (x ;; y).
Proof.
  intros Hx Hy p p' q S H. unfold seqM in *. destruct (x p) as [r| |] eqn:E; cbn in H; try discriminate.
  destruct (Hx _ _ _ S E) as (r' & -> & S'). cbn. eauto.
Qed.
Lemma k_T k k' x : keeps k x k' -> keepsT k x.
Proof. intros H p p' q S E. destruct (H _ _ _ S E) as (q' & Q & S'). eauto. Qed.
Lemma k_skip k : keepsT k skip.
Proof. intros p p' q S E. injection E as <-. exists p', k. split; [reflexivity|assumption]. Qed.
Lemma k_if k i n x : keepsT k x -> keepsT k (ifmore i n x).
Proof. unfold ifmore. destruct (Nat.eqb i n); [intros _; apply k_skip|tauto]. Qed.
Lemma k_loop n k x : keeps k x k -> keeps k (loop n x) k.
Proof.
  intro H. induction n as [|n IH]; cbn [loop]; [|now apply k_seq with k].
  intros p p' q S E. injection E as <-. exists p'. split; [reflexivity|assumption].
Qed.

Lemma k_incS k : keeps k incS (k + Z.of_N b)%Z.
Proof.
  intros [sl0 sr0 dl0 dr0] [sl1 sr1 dl1 dr1] q (i & j & Hk & Hi & Hs & Hj & Hd & Hl & F1 & F2) E. unfold incS in *. cbn [sl sr dl dr] in *.
  destruct sr0 as [|x t]; [discriminate|]. injection E as <-. destruct sr1 as [|y t']; [destruct Hs|]. cbn [srcs] in Hs.
  eexists. split; [reflexivity|]. exists (S i), j. cbn [sl sr dl dr length]. split; [rewrite Nat2Z.inj_succ; lia|]. split; [congruence|]. tauto.
Qed.
Lemma k_incD k : keeps k incD (k - 8)%Z.
Proof.
  intros [sl0 sr0 dl0 dr0] [sl1 sr1 dl1 dr1] q (i & j & Hk & Hi & Hs & Hj & Hd & Hl & F1 & F2) E. unfold incD in *. cbn [sl sr dl dr] in *.
  destruct dr0 as [|x t]; [discriminate|]. injection E as <-. destruct dr1 as [|y t']; [destruct Hl|]. cbn [lows] in Hl.
  eexists. split; [reflexivity|]. exists i, (S j). cbn [sl sr dl dr length highs]. split; [rewrite Nat2Z.inj_succ; lia|]. split; [congruence|]. split; [tauto|]. split; [congruence|]. inversion_clear F2. split; [tauto|]. split; [tauto|]. split; [now constructor|assumption].
Qed.

Lemma low_refl j x : low_eq j x x.
Proof. intros k _. reflexivity. Qed.
Lemma low_mod j x y : low_eq j x y -> low_eq j (x mod 2 ^ 8) (y mod 2 ^ 8).
Proof. intros H k Hk. rewrite !testbit_mod. destruct (k <? 8); [now apply H|reflexivity]. Qed.

Lemma k_st k e : (k <= 0)%Z -> keeps k (st 8 e) k.
Proof.
  intros Hk0 [sl0 sr0 dl0 dr0] [sl1 sr1 dl1 dr1] q (i & j & Hk & Hi & Hs & Hj & Hd & Hl & F1 & F2) E. unfold st in *. cbn [sl sr dl dr] in *.
  destruct sr0 as [|x t]; [discriminate|]. destruct dr0 as [|d dt]; [discriminate|]. injection E as <-.
  destruct sr1 as [|y t']; [destruct Hs|]. destruct dr1 as [|d' dt']; [destruct Hl|]. cbn [srcs lows] in Hs, Hl.
  eexists. split; [reflexivity|]. exists i, j. cbn [sl sr dl dr srcs lows]. inversion_clear F2. repeat split; try tauto; [|constructor; [now apply N.mod_lt|assumption]].
  destruct (Nat.lt_ge_cases i m) as [Him|Him].
  - destruct Hs as [Hs _]. rewrite (Hs Him). apply low_refl.
  - intros c Hc. exfalso. nia.
Qed.
Lemma k_orst k e : (forall x c, (Z.of_N c < k)%Z -> N.testbit (e x) c = false) -> keeps k (orst 8 e) k.
Proof.
  intros Hk0 [sl0 sr0 dl0 dr0] [sl1 sr1 dl1 dr1] q (i & j & Hk & Hi & Hs & Hj & Hd & Hl & F1 & F2) E. unfold orst in *. cbn [sl sr dl dr] in *.
  destruct sr0 as [|x t]; [discriminate|]. destruct dr0 as [|d dt]; [discriminate|]. injection E as <-.
  destruct sr1 as [|y t']; [destruct Hs|]. destruct dr1 as [|d' dt']; [destruct Hl|]. cbn [srcs lows] in Hs, Hl.
  eexists. split; [reflexivity|]. exists i, j. cbn [sl sr dl dr srcs lows]. inversion_clear F2. repeat split; try tauto; [|constructor; [now apply N.mod_lt|assumption]].
  apply (low_mod j (N.lor d (e x)) (N.lor d' (e y))). intros c Hc. rewrite !N.lor_spec. destruct Hl as [Hl _]. rewrite (Hl c Hc). f_equal.
  destruct (Nat.lt_ge_cases i m) as [Him|Him].
  - destruct Hs as [Hs _]. rewrite (Hs Him). reflexivity.
  - rewrite !Hk0 by nia. reflexivity.
Qed.

Lemma shl_low k c x : (Z.of_N c < Z.of_N k)%Z -> N.testbit (shl k x) c = false.
Proof. intro H. unfold shl. rewrite testbit_mod, testbit_shl. replace (c <? k) with true by lia. now destruct (c <? 32). Qed.
Lemma mshl_low w k c x : (Z.of_N c < Z.of_N k)%Z -> N.testbit (mshl w k x) c = false.
Proof. intro H. unfold mshl. rewrite testbit_mod, testbit_shl. replace (c <? k) with true by lia. now destruct (c <? 32). Qed.
Lemma k_shl k s : (k <= Z.of_N s)%Z -> keeps k (orst 8 (shl s)) k.
Proof. intro H. apply k_orst. intros x c Hc. apply shl_low. lia. Qed.
Lemma k_mshl k w s : (k <= Z.of_N s)%Z -> keeps k (orst 8 (mshl w s)) k.
Proof. intro H. apply k_orst. intros x c Hc. apply mshl_low. lia. Qed.
End Prefix.

Ltac kz := match goal with |- keeps _ _ ?k ?a ?k' => let v := eval cbv in k in change k with v end.
Ltac kstep :=
  lazymatch goal with
  | |- keeps _ _ _ (_ ;; _) _ => eapply k_seq; [kstep|kstep]
  | |- keepsT _ _ _ (_ ;; _) => eapply k_seqT; [kstep|kstep]
  | |- keepsT _ _ _ (ifmore _ _ _) => apply k_if; kstep
  | |- keepsT _ _ _ skip => apply k_skip
  | |- keepsT _ _ _ _ => eapply k_T; kstep
  | |- keeps _ _ _ incS _ => apply k_incS
  | |- keeps _ _ _ incD _ => apply k_incD
  | |- keeps _ _ _ (st _ _) _ => apply k_st; vm_compute; discriminate
  | |- keeps _ _ _ (orst _ (shl _)) _ => apply k_shl; vm_compute; discriminate
  | |- keeps _ _ _ (orst _ (mshl _ _)) _ => apply k_mshl; vm_compute; discriminate
  end.

Lemma pack_keeps b m n : supported b -> keepsT b m 0 (packM b n).
Proof.
  intro H. destruct (supported_cases b H) as [E|[E|[E|[E|[E|[E|[E|E]]]]]]]; subst b; cbn [packM].
  - unfold pack2, pack2_tail. eapply k_seqT; [apply k_loop; unfold pack2_group; kstep|kstep].
  - unfold pack3, pack3_tail. eapply k_seqT; [apply k_loop; unfold pack3_group; kstep|kstep].
  - unfold pack4, pack4_tail. eapply k_seqT; [apply k_loop; unfold pack4_group; kstep|kstep].
  - unfold pack6, pack6_tail. eapply k_seqT; [apply k_loop; unfold pack6_group; kstep|kstep].
  - unfold pack8. eapply k_T. apply k_loop. kstep.
  - unfold pack10, pack10_tail. eapply k_seqT; [apply k_loop; unfold pack10_group; kstep|kstep].
  - unfold pack12, pack12_tail. eapply k_seqT; [apply k_loop; unfold pack12_group; kstep|kstep].
  - unfold pack16. eapply k_T. apply k_loop. kstep.
Qed.

Lemma low_sym b m j x y : low_eq b m j x y -> low_eq b m j y x.
Proof. intros H k Hk. symmetry. now apply H. Qed.
Lemma lows_refl b m j l : lows b m j l l.
Proof. revert j. induction l as [|x l IH]; intro j; cbn; [trivial|]. split; [apply low_refl|apply IH]. Qed.
Lemma lows_app b m l1 : forall l1' l2 l2' j, length l1 = length l1' -> lows b m j l1 l1' -> lows b m (j + length l1) l2 l2' -> lows b m j (l1 ++ l2) (l1' ++ l2').
Proof.
  induction l1 as [|x l1 IH]; intros [|y l1'] l2 l2' j Hl H1 H2; cbn in *; try discriminate.
  - now rewrite Nat.add_0_r in H2.
  - split; [tauto|]. apply IH; [lia|tauto|]. now replace (S j + length l1)%nat with (j + S (length l1))%nat by lia.
Qed.
Lemma highs_len b m : forall j l l', highs b m j l l' -> length l = j /\ length l' = j.
Proof.
  induction j as [|j IH]; intros [|x l] [|y l'] H; cbn in *; try tauto. destruct (IH l l') as [-> ->]; tauto.
Qed.
Lemma highs_lows b m : forall j l l', highs b m j l l' -> lows b m 0 (rev l) (rev l').
Proof.
  induction j as [|j IH]; intros [|x l] [|y l'] H; cbn in *; try tauto.
  destruct (highs_len b m j l l') as [H1 H2]; [tauto|]. apply lows_app; [now rewrite !rev_length, H1, H2|apply IH; tauto|].
  rewrite rev_length, H1. cbn. tauto.
Qed.
Lemma lows_len b m : forall l l' j, lows b m j l l' -> length l = length l'.
Proof. induction l as [|x l IH]; intros [|y l'] j H; cbn in *; try tauto. f_equal. apply (IH l' (S j)). tauto. Qed.
Lemma lows_nth b m : forall l l' j k, lows b m j l l' -> low_eq b m (j + k) (nth k l 0) (nth k l' 0).
Proof.
  induction l as [|x l IH]; intros [|y l'] j k H; cbn in H; try tauto.
  - destruct k; apply low_refl.
  - destruct k as [|k]; cbn [nth]; [rewrite Nat.add_0_r; tauto|]. replace (j + S k)%nat with (S j + k)%nat by lia. apply IH. tauto.
Qed.

Lemma lows_value b m l l' : fits 8 l -> fits 8 l' -> lows b m 0 l l' ->
  value 8 l mod 2 ^ (b * N.of_nat m) = value 8 l' mod 2 ^ (b * N.of_nat m).
Proof.
  intros F F' H. apply N.bits_inj. intro c. rewrite !testbit_mod. destruct (N.ltb_spec c (b * N.of_nat m)) as [Hc|_]; [|reflexivity].
  rewrite !stream_bit_value by (reflexivity || assumption). unfold stream_bit.
  pose proof (lows_nth b m l l' 0 (N.to_nat (c / 8)) H) as G. rewrite Nat.add_0_l in G. apply G. lia.
Qed.

Lemma srcs_prefix m : forall l l' i, length l = length l' -> firstn (m - i) l = firstn (m - i) l' -> srcs m i l l'.
Proof.
  induction l as [|x l IH]; intros [|y l'] i Hl H; cbn in Hl; try discriminate; cbn [srcs]; [trivial|].
  destruct (m - i)%nat as [|d] eqn:E.
  - split; [lia|]. apply IH; [lia|]. now replace (m - S i)%nat with 0%nat by lia.
  - cbn in H. injection H as H1 H2. split; [now intros _|]. apply IH; [lia|]. now replace (m - S i)%nat with d by lia.
Qed.

Lemma pack_prefix_exact b m n dest symbols : supported b -> (m <= n)%nat -> (n <= length symbols)%nat -> length dest = bsz n b ->
  fits b (firstn m symbols) -> fits 8 dest ->
  exists packed, pack b dest symbols n = Ok packed /\ length packed = length dest /\ fits 8 packed /\
    digits b m (value 8 packed) = firstn m symbols.
Proof.
  intros Hb Hm Hn Hd Hf Hd8.
  set (zs := firstn m symbols ++ repeat 0 (length symbols - m)).
  assert (L1 : length (firstn m symbols) = m) by (rewrite firstn_length; lia).
  assert (Lz : length zs = length symbols) by (unfold zs; rewrite app_length, L1, repeat_length; lia).
  assert (Fz : fits b zs) by (apply fits_app; split; [assumption|apply fits_repeat, pow2_pos]).
  assert (P : pack b dest zs n = Ok (digits 8 (bsz n b) (value b (firstn n zs)))).
  { rewrite pack_layout_lem; [|assumption|lia|lia|now apply fits_firstn]. rewrite skipn_all2 by lia. now rewrite app_nil_r. }
  unfold pack, run in P. destruct (packM b n _) as [q| |] eqn:E; cbn in P; try discriminate. injection P as P.
  destruct (pack_keeps b m n Hb (mkP [] zs [] dest) (mkP [] symbols [] dest) q) as (q' & k' & E' & S); [|exact E|].
  - exists 0%nat, 0%nat. cbn [sl sr dl dr length highs]. split; [lia|]. split; [reflexivity|]. split; [|repeat split; [apply lows_refl|constructor|assumption]].
    apply srcs_prefix; [assumption|]. rewrite Nat.sub_0_r. unfold zs. rewrite firstn_app, L1, Nat.sub_diag. cbn [firstn]. rewrite app_nil_r, firstn_firstn. f_equal. lia.
  - unfold pack, run. rewrite E'. cbn [bind]. eexists. split; [reflexivity|].
    destruct S as (i & j & _ & _ & _ & Hj & H1 & H2 & F1 & F2).
    destruct (highs_len b m j _ _ H1) as [G1 G2].
    assert (HL : lows b m 0 (rev (dl q) ++ dr q) (rev (dl q') ++ dr q')).
    { apply lows_app; [rewrite !rev_length; lia|now apply highs_lows with j|]. rewrite rev_length, G1. exact H2. }
    assert (F : fits 8 (rev (dl q') ++ dr q')) by (apply fits_app; split; [now apply Forall_rev|assumption]).
    split; [|split; [exact F|]].
    + rewrite <- (lows_len _ _ _ _ _ HL), P, digits_length. now symmetry.
    + rewrite <- (digits_mod b m _ (b * N.of_nat m)) by lia.
      rewrite <- (lows_value b m (rev (dl q) ++ dr q)); [|rewrite P; apply digits_fits|exact F|exact HL].
      rewrite digits_mod by lia. rewrite P, value_digits.
      assert (Lf : length (firstn n zs) = n) by (rewrite firstn_length; lia).
      rewrite N.mod_small by (apply (value_lt n b); [exact Lf|now apply fits_firstn]).
      replace (firstn n zs) with (firstn m symbols ++ repeat 0 (n - m)).
      * pose proof (digits_app b m (n - m) (value b (firstn m symbols ++ repeat 0 (n - m)))) as D.
        assert (Fa : fits b (firstn m symbols ++ repeat 0 (n - m))) by (apply fits_app; split; [assumption|apply fits_repeat, pow2_pos]).
        pose proof (digits_value b _ Fa) as V. rewrite app_length, L1, repeat_length in V. rewrite D in V.
        apply app_inj_len in V; [tauto|]. now rewrite digits_length.
      * unfold zs. rewrite firstn_app, L1. rewrite firstn_firstn. replace (Nat.min n m) with m by lia. f_equal.
        transitivity (firstn (n - m) (repeat 0 ((n - m) + (length symbols - n)))); [|f_equal; f_equal; lia].
        rewrite repeat_app, firstn_app, repeat_length, Nat.sub_diag. cbn [firstn]. now rewrite app_nil_r, firstn_all2 by (rewrite repeat_length; lia).
Qed.

Lemma pack_prefix b m n dest symbols out0 : supported b -> (m <= n)%nat -> (n <= length symbols)%nat -> (bsz n b <= length dest)%nat -> (n <= length out0)%nat ->
  fits b (firstn m symbols) -> fits 8 dest ->
  exists packed out, pack b dest symbols n = Ok packed /\ length packed = length dest /\ fits 8 packed /\
    (forall k, (bsz n b <= k)%nat -> nth_error packed k = nth_error dest k) /\
    unpack b out0 packed n = Ok out /\ length out = length out0 /\ fits b (firstn n out) /\ firstn m out = firstn m symbols.
Proof.
  intros Hb Hm Hn Hd Ho Hf Hd8.
  assert (Ld : length (firstn (bsz n b) dest) = bsz n b) by (rewrite firstn_length; lia).
  destruct (pack_prefix_exact b m n (firstn (bsz n b) dest) symbols Hb Hm Hn Ld Hf) as (packed & P & L & F & D); [now apply fits_firstn|].
  rewrite Ld in L. assert (Fs : fits 8 (skipn (bsz n b) dest)) by (unfold fits in *; rewrite <- (firstn_skipn (bsz n b) dest) in Hd8; now apply Forall_app in Hd8).
  exists (packed ++ skipn (bsz n b) dest), (digits b n (value 8 packed) ++ skipn n out0).
  split; [|split; [|split; [|split; [|split; [|split; [|split]]]]]].
  - unfold pack in *. pose proof (run_framed (packM b n) [] (skipn (bsz n b) dest) _ _ _ (packM_framed b n Hb) P) as R. rewrite app_nil_r, firstn_skipn in R. exact R.
  - rewrite app_length, skipn_length. lia.
  - apply fits_app. now split.
  - intros k Hk. rewrite nth_error_app2 by lia. rewrite L. rewrite <- (firstn_skipn (bsz n b) dest) at 2. rewrite (nth_error_app2 (firstn _ _)) by lia. now rewrite Ld.
  - rewrite unpack_layout_lem; [|assumption|assumption|rewrite app_length; lia|apply fits_app; now split].
    do 3 f_equal. rewrite firstn_app, L, Nat.sub_diag. cbn [firstn]. rewrite app_nil_r. rewrite (firstn_all2 packed) by lia. reflexivity.
  - rewrite app_length, digits_length, skipn_length. lia.
  - rewrite firstn_app, digits_length, Nat.sub_diag. cbn [firstn]. rewrite app_nil_r. apply fits_firstn, digits_fits.
  - rewrite firstn_app, digits_length. replace (m - n)%nat with 0%nat by lia. cbn [firstn]. rewrite app_nil_r.
    replace n with (m + (n - m))%nat by lia. rewrite digits_app, firstn_app, digits_length, Nat.sub_diag. cbn [firstn]. rewrite app_nil_r.
    rewrite firstn_all2 by (rewrite digits_length; lia). exact D.
Qed.
