(** Proofs about the byte packer model against the bit-stream specification. *)
From Verif Require Import Base BytePacker BitStream.
From Coq Require Import Btauto ZifyBool ZifyNat ZifyN.
Local Open Scope N_scope.
Ltac Zify.zify_post_hook ::= Z.div_mod_to_equations.

(* ------------------------------------------------------------------ *)
(** * The specification functions *)

Lemma pow2_pos w : 0 < 2 ^ w.
Proof. apply N.neq_0_lt_0, N.pow_nonzero; discriminate. Qed.

Lemma digits_length w k v : length (digits w k v) = k.
Proof. revert v; induction k as [|k IH]; intro v; cbn [digits length]; [reflexivity|]. now rewrite IH. Qed.

Lemma digits_fits w k v : fits w (digits w k v).
Proof.
  revert v; induction k as [|k IH]; intro v; cbn [digits]; constructor.
  - apply N.mod_lt, N.pow_nonzero; discriminate.
  - apply IH.
Qed.

Lemma value_bound w l : fits w l -> value w l < 2 ^ (w * N.of_nat (length l)).
Proof.
  induction 1 as [|x l Hx _ IH]; cbn [value length].
  - rewrite N.mul_0_r. reflexivity.
  - rewrite Nat2N.inj_succ, N.mul_succ_r, N.add_comm, N.pow_add_r.
    pose proof (pow2_pos w). nia.
Qed.

Lemma value_app w l1 l2 :
  value w (l1 ++ l2) = value w l1 + 2 ^ (w * N.of_nat (length l1)) * value w l2.
Proof.
  induction l1 as [|x l1 IH]; cbn [value length app].
  - rewrite N.mul_0_r, N.pow_0_r. lia.
  - rewrite IH, Nat2N.inj_succ, N.mul_succ_r, (N.add_comm _ w), N.pow_add_r. nia.
Qed.

Lemma mod_mod_pow a m n : m <= n -> (a mod 2 ^ n) mod 2 ^ m = a mod 2 ^ m.
Proof.
  intro H. apply N.bits_inj. intro i.
  destruct (N.lt_ge_cases i m) as [Hi|Hi].
  - rewrite !N.mod_pow2_bits_low by lia. reflexivity.
  - rewrite !N.mod_pow2_bits_high by lia. reflexivity.
Qed.

Lemma digits_app w k1 k2 v :
  digits w (k1 + k2) v = digits w k1 v ++ digits w k2 (v / 2 ^ (w * N.of_nat k1)).
Proof.
  revert v; induction k1 as [|k1 IH]; intro v.
  - cbn [Nat.add digits app]. rewrite N.mul_0_r, N.pow_0_r, N.div_1_r. reflexivity.
  - cbn [Nat.add digits app]. f_equal. rewrite IH. f_equal. f_equal.
    rewrite Nat2N.inj_succ, N.mul_succ_r, N.add_comm, N.pow_add_r.
    apply N.div_div; apply N.pow_nonzero; discriminate.
Qed.

Lemma digits_mod w k v e : w * N.of_nat k <= e -> digits w k (v mod 2 ^ e) = digits w k v.
Proof.
  revert v e; induction k as [|k IH]; intros v e H; cbn [digits]; [reflexivity|].
  f_equal.
  - apply mod_mod_pow. nia.
  - rewrite <- (IH (v / 2 ^ w) (e - w)) by nia. f_equal.
    apply N.bits_inj. intro i. rewrite N.div_pow2_bits.
    destruct (N.lt_ge_cases i (e - w)) as [Hi|Hi].
    + rewrite !N.mod_pow2_bits_low by lia. now rewrite N.div_pow2_bits.
    + rewrite !N.mod_pow2_bits_high by lia. reflexivity.
Qed.

Lemma digits_split w k1 k2 x y :
  x < 2 ^ (w * N.of_nat k1) ->
  digits w (k1 + k2) (x + 2 ^ (w * N.of_nat k1) * y) = digits w k1 x ++ digits w k2 y.
Proof.
  intro H. set (P := 2 ^ (w * N.of_nat k1)) in *.
  assert (HP : P <> 0) by (apply N.pow_nonzero; discriminate).
  rewrite digits_app. fold P. f_equal.
  - rewrite <- (digits_mod w k1 (x + P * y) (w * N.of_nat k1)) by lia. fold P.
    replace ((x + P * y) mod P) with x; [reflexivity|].
    rewrite N.mul_comm, N.mod_add by assumption. now rewrite N.mod_small.
  - f_equal. rewrite N.mul_comm, N.div_add by assumption. rewrite N.div_small by assumption. lia.
Qed.

Lemma value_digits w k v : value w (digits w k v) = v mod 2 ^ (w * N.of_nat k).
Proof.
  revert v; induction k as [|k IH]; intro v; cbn [value digits].
  - now rewrite N.mul_0_r, N.pow_0_r, N.mod_1_r.
  - rewrite IH. rewrite Nat2N.inj_succ, N.mul_succ_r, (N.add_comm _ w), N.pow_add_r.
    rewrite N.mod_mul_r by (apply N.pow_nonzero; discriminate). lia.
Qed.

Lemma digits_value w l : fits w l -> digits w (length l) (value w l) = l.
Proof.
  induction 1 as [|x l Hx _ IH]; cbn [length value digits]; [reflexivity|].
  pose proof (pow2_pos w).
  assert (2 ^ w <> 0) by lia.
  f_equal.
  - rewrite N.mul_comm, N.mod_add by assumption. now apply N.mod_small.
  - rewrite N.mul_comm, N.div_add, N.div_small by assumption. apply IH.
Qed.

(** the bits of [value]: one digit at a time *)
Lemma testbit_cons w x v c :
  x < 2 ^ w ->
  N.testbit (x + 2 ^ w * v) c = if c <? w then N.testbit x c else N.testbit v (c - w).
Proof.
  intro Hx. destruct (N.ltb_spec c w) as [Hc|Hc].
  - rewrite <- (N.mod_pow2_bits_low (x + 2 ^ w * v) w c) by assumption.
    rewrite N.mul_comm, N.mod_add by (apply N.pow_nonzero; discriminate).
    now rewrite N.mod_small by assumption.
  - replace c with ((c - w) + w) at 1 by lia. rewrite <- N.div_pow2_bits.
    rewrite N.mul_comm, N.div_add by (apply N.pow_nonzero; discriminate).
    now rewrite N.div_small by assumption.
Qed.

Lemma testbit_small s b c : s < 2 ^ b -> b <= c -> N.testbit s c = false.
Proof.
  intros Hs Hc. rewrite <- (N.mod_small s (2 ^ b)) by assumption.
  now apply N.mod_pow2_bits_high.
Qed.

Lemma testbit_shl a k j :
  N.testbit (N.shiftl a k) j = if j <? k then false else N.testbit a (j - k).
Proof.
  destruct (N.ltb_spec j k).
  - now apply N.shiftl_spec_low.
  - now apply N.shiftl_spec_high'.
Qed.

Lemma testbit_mod a w j :
  N.testbit (a mod 2 ^ w) j = if j <? w then N.testbit a j else false.
Proof.
  destruct (N.ltb_spec j w).
  - now apply N.mod_pow2_bits_low.
  - now apply N.mod_pow2_bits_high.
Qed.

Lemma stream_bit_value w l m :
  0 < w -> fits w l -> N.testbit (value w l) m = stream_bit w l m.
Proof.
  intros Hw Hl. unfold stream_bit. revert m.
  induction Hl as [|x l Hx _ IH]; intro m; cbn [value].
  - rewrite N.bits_0. destruct (N.to_nat _); cbn; now rewrite ?N.bits_0.
  - rewrite testbit_cons by assumption. destruct (N.ltb_spec m w) as [Hm|Hm].
    + rewrite N.div_small, N.mod_small by assumption. reflexivity.
    + rewrite IH. replace m with ((m - w) + 1 * w) at 3 4 by lia.
      rewrite N.div_add, N.mod_add by lia.
      replace (N.to_nat ((m - w) / w + 1)) with (S (N.to_nat ((m - w) / w))) by lia.
      reflexivity.
Qed.

(* ------------------------------------------------------------------ *)
(** * Bit-level tactics *)

Ltac closed_eval :=
  repeat match goal with
  | |- context [?a <? ?b] =>
      let v := eval vm_compute in (a <? b) in
      match v with true => idtac | false => idtac end;
      change (a <? b) with v; cbv iota
  | |- context [?a - ?b] =>
      let v := eval vm_compute in (a - b) in
      match v with N0 => idtac | Npos _ => idtac end;
      progress change (a - b) with v
  | |- context [?a + ?b] =>
      let v := eval vm_compute in (a + b) in
      match v with N0 => idtac | Npos _ => idtac end;
      progress change (a + b) with v
  end.

Ltac const_bits :=
  repeat match goal with
  | |- context [N.testbit ?m ?j] =>
      let v := eval vm_compute in (N.testbit m j) in
      match v with true => idtac | false => idtac end;
      change (N.testbit m j) with v
  end.

Ltac small_bits :=
  repeat match goal with
  | H : ?s < 2 ^ ?b |- context [N.testbit ?s ?c] =>
      rewrite (testbit_small s b c H) by (vm_compute; discriminate)
  end.

Ltac bits_step :=
  first
  [ rewrite testbit_mod
  | rewrite N.lor_spec
  | rewrite N.land_spec
  | rewrite testbit_shl
  | rewrite N.shiftr_spec'
  | rewrite N.div_pow2_bits
  | rewrite N.bits_0
  | match goal with H : fits ?w ?l |- context [N.testbit (value ?w ?l) ?c] =>
      rewrite (stream_bit_value w l c eq_refl H);
      unfold stream_bit;
      let q := eval vm_compute in (N.to_nat (c / w)) in change (N.to_nat (c / w)) with q;
      let r := eval vm_compute in (c mod w) in change (c mod w) with r;
      cbn [nth]
    end ].

Ltac bits_norm :=
  repeat (bits_step; closed_eval); const_bits; small_bits;
  rewrite ?andb_true_r, ?andb_false_r, ?orb_false_r, ?orb_false_l, ?andb_true_l, ?andb_false_l;
  try reflexivity; try btauto.

(** equality of two [w]-bit numbers, bit by bit; [w] <= 16 *)
Lemma bits_inj_small w a b :
  (forall j, j < w -> N.testbit (a mod 2 ^ w) j = N.testbit (b mod 2 ^ w) j) ->
  a mod 2 ^ w = b mod 2 ^ w.
Proof.
  intro H. apply N.bits_inj. intro j. destruct (N.lt_ge_cases j w) as [Hj|Hj].
  - now apply H.
  - rewrite !N.mod_pow2_bits_high by assumption. reflexivity.
Qed.

Lemma mod_small_32 a w : a mod 2 ^ 32 = (a mod 2 ^ 32) mod 2 ^ w -> w <= 32 -> a mod 2 ^ 32 = a mod 2 ^ w.
Proof. intros H Hw. rewrite H. now apply mod_mod_pow. Qed.

Ltac enum_j j :=
  match goal with
  | H : j < ?w |- _ =>
    let rec go k :=
      match eval vm_compute in (k <? w) with
      | true => let k1 := eval vm_compute in (k + 1) in
          destruct (N.eq_dec j k) as [->|?]; [clear H | go k1]
      | false => exfalso; lia
      end in go 0
  end.

Ltac pack_elem :=
  apply bits_inj_small; let j := fresh "j" in let Hj := fresh "Hj" in intros j Hj;
  enum_j j; bits_norm.

(** compare a 32-bit cell with a [w]-bit digit *)
Lemma bits_inj_32 w a b :
  w <= 32 ->
  (forall j, j < 32 -> N.testbit (a mod 2 ^ 32) j = N.testbit (b mod 2 ^ w) j) ->
  a mod 2 ^ 32 = b mod 2 ^ w.
Proof.
  intros Hw H. apply N.bits_inj. intro j. destruct (N.lt_ge_cases j 32) as [Hj|Hj].
  - now apply H.
  - rewrite !N.mod_pow2_bits_high by lia. reflexivity.
Qed.

Ltac unpack_elem :=
  apply bits_inj_32; [vm_compute; discriminate|];
  let j := fresh "j" in let Hj := fresh "Hj" in intros j Hj;
  enum_j j; bits_norm.

Ltac split_fits :=
  repeat match goal with
  | H : Forall _ (_ :: _) |- _ => apply Forall_cons_iff in H; destruct H as [? H]
  | H : Forall _ [] |- _ => clear H
  end.

Ltac list_of_len l :=
  repeat match goal with
  | H : length l = S _ |- _ => destruct l as [|? l]; [discriminate H|]; cbn [length] in H; apply Nat.succ_inj in H
  | H : length l = O |- _ => apply length_zero_iff_nil in H; subst l
  end.

Ltac run_model :=
  cbv [seqM skip st orst incS incD sl sr dl dr bind app rev id_ shl mshl mshr msk
       digits Nat.add].

(* ------------------------------------------------------------------ *)
(** * One group of symbols *)

(** [g] consumes [k] source cells and produces the [m] destination cells
    [out ss] *)
Definition group_ok (k m : nat) (ok : list N -> Prop) (out : list N -> list N) (g : M) : Prop :=
  forall l ss srest d ds drest,
    length ss = k -> length ds = m -> ok ss ->
    g (mkP l (ss ++ srest) d (ds ++ drest)) =
    Ok (mkP (rev ss ++ l) srest (rev (out ss) ++ d) drest).

(** final partial group: the destination pointer may stop anywhere; the
    destination memory as a whole is what counts *)
Definition tail_ok (m : nat) (r : nat) (ok : list N -> Prop) (out : list N -> list N) (t : M) : Prop :=
  forall l ss srest d ds drest,
    length ss = r -> length ds = m -> ok ss ->
    exists q, t (mkP l (ss ++ srest) d (ds ++ drest)) = Ok q /\
              rev (dl q) ++ dr q = rev d ++ out ss ++ drest.

Ltac cons_eq tac := repeat (apply (f_equal2 cons); [solve [reflexivity | tac]|]); reflexivity.

Ltac group_tac ss ds g tac :=
  intros l ss srest d ds drest Hs Hd Hf;
  list_of_len ss; list_of_len ds;
  pose proof Hf as Hf'; unfold fits in Hf'; split_fits;
  unfold g; run_model;
  apply (f_equal Ok);
  match goal with |- mkP ?a ?b ?c ?d = mkP ?a ?b ?c' ?d =>
    apply (f_equal (fun z => mkP a b z d)) end;
  cons_eq tac.


(** group lemmas *)
Lemma pack2_group_ok : group_ok 4 1 (fits 2) (fun ss => digits 8 1 (value 2 ss)) pack2_group.
Proof. group_tac ss ds pack2_group pack_elem. Qed.

Lemma unpack2_group_ok : group_ok 1 4 (fits 8) (fun ss => digits 2 4 (value 8 ss)) unpack2_group.
Proof. group_tac ss ds unpack2_group unpack_elem. Qed.

Lemma pack3_group_ok : group_ok 8 3 (fits 3) (fun ss => digits 8 3 (value 3 ss)) pack3_group.
Proof. group_tac ss ds pack3_group pack_elem. Qed.

Lemma unpack3_group_ok : group_ok 3 8 (fits 8) (fun ss => digits 3 8 (value 8 ss)) unpack3_group.
Proof. group_tac ss ds unpack3_group unpack_elem. Qed.

Lemma pack4_group_ok : group_ok 2 1 (fits 4) (fun ss => digits 8 1 (value 4 ss)) pack4_group.
Proof. group_tac ss ds pack4_group pack_elem. Qed.

Lemma unpack4_group_ok : group_ok 1 2 (fits 8) (fun ss => digits 4 2 (value 8 ss)) unpack4_group.
Proof. group_tac ss ds unpack4_group unpack_elem. Qed.

Lemma pack6_group_ok : group_ok 4 3 (fits 6) (fun ss => digits 8 3 (value 6 ss)) pack6_group.
Proof. group_tac ss ds pack6_group pack_elem. Qed.

Lemma unpack6_group_ok : group_ok 3 4 (fits 8) (fun ss => digits 6 4 (value 8 ss)) unpack6_group.
Proof. group_tac ss ds unpack6_group unpack_elem. Qed.

Lemma pack10_group_ok : group_ok 4 5 (fits 10) (fun ss => digits 8 5 (value 10 ss)) pack10_group.
Proof. group_tac ss ds pack10_group pack_elem. Qed.

Lemma unpack10_group_ok : group_ok 5 4 (fits 8) (fun ss => digits 10 4 (value 8 ss)) unpack10_group.
Proof. group_tac ss ds unpack10_group unpack_elem. Qed.

Lemma pack12_group_ok : group_ok 2 3 (fits 12) (fun ss => digits 8 3 (value 12 ss)) pack12_group.
Proof. group_tac ss ds pack12_group pack_elem. Qed.

Lemma unpack12_group_ok : group_ok 3 2 (fits 8) (fun ss => digits 12 2 (value 8 ss)) unpack12_group.
Proof. group_tac ss ds unpack12_group unpack_elem. Qed.


Lemma pack8_group_ok : group_ok 1 1 (fits 8) (fun ss => digits 8 1 (value 8 ss)) (st 8 id_ ;; incS ;; incD).
Proof. group_tac ss ds skip pack_elem. Qed.
Lemma unpack8_group_ok : group_ok 1 1 (fits 8) (fun ss => digits 8 1 (value 8 ss)) (st 32 id_ ;; incS ;; incD).
Proof. group_tac ss ds skip unpack_elem. Qed.
Lemma pack16_group_ok : group_ok 1 2 (fits 16) (fun ss => digits 8 2 (value 16 ss))
  (st 8 id_ ;; incD ;; st 8 (fun x => N.shiftr x 8) ;; incS ;; incD).
Proof. group_tac ss ds skip pack_elem. Qed.
Lemma unpack16_group_ok : group_ok 2 1 (fits 8) (fun ss => digits 16 1 (value 8 ss))
  (st 32 id_ ;; incS ;; orst 32 (shl 8) ;; incS ;; incD).
Proof. group_tac ss ds skip unpack_elem. Qed.

(* ------------------------------------------------------------------ *)
(** * Tails *)

Lemma eqb_add_l P i r : Nat.eqb (P + i) (P + r) = Nat.eqb i r.
Proof.
  destruct (Nat.eqb_spec i r), (Nat.eqb_spec (P + i) (P + r)); try reflexivity; lia.
Qed.
Lemma eqb_add_0 P r : Nat.eqb P (P + r) = Nat.eqb 0 r.
Proof. rewrite <- (Nat.add_0_r P) at 1. apply eqb_add_l. Qed.

Ltac tail_tac ss ds t tac :=
  intros l ss srest d ds drest Hs Hd Hf;
  list_of_len ss; list_of_len ds;
  pose proof Hf as Hf'; unfold fits in Hf'; split_fits;
  unfold t, ifmore; rewrite ?eqb_add_l, ?eqb_add_0; cbn [Nat.eqb];
  eexists; (split; [run_model; reflexivity|]);
  cbn [dl dr rev app digits]; rewrite <- ?app_assoc; cbn [app];
  apply (f_equal (app (rev d))); cons_eq tac.

Lemma pack2_tail0 P : tail_ok 0 0 (fits 2) (fun ss => digits 8 0 (value 2 ss)) (pack2_tail P (P + 0)).
Proof. tail_tac ss ds pack2_tail pack_elem. Qed.
Lemma unpack2_tail0 P : tail_ok 0 0 (fits 8) (fun ss => digits 2 0 (value 8 ss)) (unpack2_tail P (P + 0)).
Proof. tail_tac ss ds unpack2_tail unpack_elem. Qed.
Lemma pack2_tail1 P : tail_ok 1 1 (fits 2) (fun ss => digits 8 1 (value 2 ss)) (pack2_tail P (P + 1)).
Proof. tail_tac ss ds pack2_tail pack_elem. Qed.
Lemma unpack2_tail1 P : tail_ok 1 1 (fits 8) (fun ss => digits 2 1 (value 8 ss)) (unpack2_tail P (P + 1)).
Proof. tail_tac ss ds unpack2_tail unpack_elem. Qed.
Lemma pack2_tail2 P : tail_ok 1 2 (fits 2) (fun ss => digits 8 1 (value 2 ss)) (pack2_tail P (P + 2)).
Proof. tail_tac ss ds pack2_tail pack_elem. Qed.
Lemma unpack2_tail2 P : tail_ok 2 1 (fits 8) (fun ss => digits 2 2 (value 8 ss)) (unpack2_tail P (P + 2)).
Proof. tail_tac ss ds unpack2_tail unpack_elem. Qed.
Lemma pack2_tail3 P : tail_ok 1 3 (fits 2) (fun ss => digits 8 1 (value 2 ss)) (pack2_tail P (P + 3)).
Proof. tail_tac ss ds pack2_tail pack_elem. Qed.
Lemma unpack2_tail3 P : tail_ok 3 1 (fits 8) (fun ss => digits 2 3 (value 8 ss)) (unpack2_tail P (P + 3)).
Proof. tail_tac ss ds unpack2_tail unpack_elem. Qed.
Lemma pack3_tail0 P : tail_ok 0 0 (fits 3) (fun ss => digits 8 0 (value 3 ss)) (pack3_tail P (P + 0)).
Proof. tail_tac ss ds pack3_tail pack_elem. Qed.
Lemma unpack3_tail0 P : tail_ok 0 0 (fits 8) (fun ss => digits 3 0 (value 8 ss)) (unpack3_tail P (P + 0)).
Proof. tail_tac ss ds unpack3_tail unpack_elem. Qed.
Lemma pack3_tail1 P : tail_ok 1 1 (fits 3) (fun ss => digits 8 1 (value 3 ss)) (pack3_tail P (P + 1)).
Proof. tail_tac ss ds pack3_tail pack_elem. Qed.
Lemma unpack3_tail1 P : tail_ok 1 1 (fits 8) (fun ss => digits 3 1 (value 8 ss)) (unpack3_tail P (P + 1)).
Proof. tail_tac ss ds unpack3_tail unpack_elem. Qed.
Lemma pack3_tail2 P : tail_ok 1 2 (fits 3) (fun ss => digits 8 1 (value 3 ss)) (pack3_tail P (P + 2)).
Proof. tail_tac ss ds pack3_tail pack_elem. Qed.
Lemma unpack3_tail2 P : tail_ok 2 1 (fits 8) (fun ss => digits 3 2 (value 8 ss)) (unpack3_tail P (P + 2)).
Proof. tail_tac ss ds unpack3_tail unpack_elem. Qed.
Lemma pack3_tail3 P : tail_ok 2 3 (fits 3) (fun ss => digits 8 2 (value 3 ss)) (pack3_tail P (P + 3)).
Proof. tail_tac ss ds pack3_tail pack_elem. Qed.
Lemma unpack3_tail3 P : tail_ok 3 2 (fits 8) (fun ss => digits 3 3 (value 8 ss)) (unpack3_tail P (P + 3)).
Proof. tail_tac ss ds unpack3_tail unpack_elem. Qed.
Lemma pack3_tail4 P : tail_ok 2 4 (fits 3) (fun ss => digits 8 2 (value 3 ss)) (pack3_tail P (P + 4)).
Proof. tail_tac ss ds pack3_tail pack_elem. Qed.
Lemma unpack3_tail4 P : tail_ok 4 2 (fits 8) (fun ss => digits 3 4 (value 8 ss)) (unpack3_tail P (P + 4)).
Proof. tail_tac ss ds unpack3_tail unpack_elem. Qed.
Lemma pack3_tail5 P : tail_ok 2 5 (fits 3) (fun ss => digits 8 2 (value 3 ss)) (pack3_tail P (P + 5)).
Proof. tail_tac ss ds pack3_tail pack_elem. Qed.
Lemma unpack3_tail5 P : tail_ok 5 2 (fits 8) (fun ss => digits 3 5 (value 8 ss)) (unpack3_tail P (P + 5)).
Proof. tail_tac ss ds unpack3_tail unpack_elem. Qed.
Lemma pack3_tail6 P : tail_ok 3 6 (fits 3) (fun ss => digits 8 3 (value 3 ss)) (pack3_tail P (P + 6)).
Proof. tail_tac ss ds pack3_tail pack_elem. Qed.
Lemma unpack3_tail6 P : tail_ok 6 3 (fits 8) (fun ss => digits 3 6 (value 8 ss)) (unpack3_tail P (P + 6)).
Proof. tail_tac ss ds unpack3_tail unpack_elem. Qed.
Lemma pack3_tail7 P : tail_ok 3 7 (fits 3) (fun ss => digits 8 3 (value 3 ss)) (pack3_tail P (P + 7)).
Proof. tail_tac ss ds pack3_tail pack_elem. Qed.
Lemma unpack3_tail7 P : tail_ok 7 3 (fits 8) (fun ss => digits 3 7 (value 8 ss)) (unpack3_tail P (P + 7)).
Proof. tail_tac ss ds unpack3_tail unpack_elem. Qed.
Lemma pack4_tail0 P : tail_ok 0 0 (fits 4) (fun ss => digits 8 0 (value 4 ss)) (pack4_tail P (P + 0)).
Proof. tail_tac ss ds pack4_tail pack_elem. Qed.
Lemma unpack4_tail0 P : tail_ok 0 0 (fits 8) (fun ss => digits 4 0 (value 8 ss)) (unpack4_tail P (P + 0)).
Proof. tail_tac ss ds unpack4_tail unpack_elem. Qed.
Lemma pack4_tail1 P : tail_ok 1 1 (fits 4) (fun ss => digits 8 1 (value 4 ss)) (pack4_tail P (P + 1)).
Proof. tail_tac ss ds pack4_tail pack_elem. Qed.
Lemma unpack4_tail1 P : tail_ok 1 1 (fits 8) (fun ss => digits 4 1 (value 8 ss)) (unpack4_tail P (P + 1)).
Proof. tail_tac ss ds unpack4_tail unpack_elem. Qed.
Lemma pack6_tail0 P : tail_ok 0 0 (fits 6) (fun ss => digits 8 0 (value 6 ss)) (pack6_tail P (P + 0)).
Proof. tail_tac ss ds pack6_tail pack_elem. Qed.
Lemma unpack6_tail0 P : tail_ok 0 0 (fits 8) (fun ss => digits 6 0 (value 8 ss)) (unpack6_tail P (P + 0)).
Proof. tail_tac ss ds unpack6_tail unpack_elem. Qed.
Lemma pack6_tail1 P : tail_ok 1 1 (fits 6) (fun ss => digits 8 1 (value 6 ss)) (pack6_tail P (P + 1)).
Proof. tail_tac ss ds pack6_tail pack_elem. Qed.
Lemma unpack6_tail1 P : tail_ok 1 1 (fits 8) (fun ss => digits 6 1 (value 8 ss)) (unpack6_tail P (P + 1)).
Proof. tail_tac ss ds unpack6_tail unpack_elem. Qed.
Lemma pack6_tail2 P : tail_ok 2 2 (fits 6) (fun ss => digits 8 2 (value 6 ss)) (pack6_tail P (P + 2)).
Proof. tail_tac ss ds pack6_tail pack_elem. Qed.
Lemma unpack6_tail2 P : tail_ok 2 2 (fits 8) (fun ss => digits 6 2 (value 8 ss)) (unpack6_tail P (P + 2)).
Proof. tail_tac ss ds unpack6_tail unpack_elem. Qed.
Lemma pack6_tail3 P : tail_ok 3 3 (fits 6) (fun ss => digits 8 3 (value 6 ss)) (pack6_tail P (P + 3)).
Proof. tail_tac ss ds pack6_tail pack_elem. Qed.
Lemma unpack6_tail3 P : tail_ok 3 3 (fits 8) (fun ss => digits 6 3 (value 8 ss)) (unpack6_tail P (P + 3)).
Proof. tail_tac ss ds unpack6_tail unpack_elem. Qed.
Lemma pack10_tail0 P : tail_ok 0 0 (fits 10) (fun ss => digits 8 0 (value 10 ss)) (pack10_tail P (P + 0)).
Proof. tail_tac ss ds pack10_tail pack_elem. Qed.
Lemma unpack10_tail0 P : tail_ok 0 0 (fits 8) (fun ss => digits 10 0 (value 8 ss)) (unpack10_tail P (P + 0)).
Proof. tail_tac ss ds unpack10_tail unpack_elem. Qed.
Lemma pack10_tail1 P : tail_ok 2 1 (fits 10) (fun ss => digits 8 2 (value 10 ss)) (pack10_tail P (P + 1)).
Proof. tail_tac ss ds pack10_tail pack_elem. Qed.
Lemma unpack10_tail1 P : tail_ok 1 2 (fits 8) (fun ss => digits 10 1 (value 8 ss)) (unpack10_tail P (P + 1)).
Proof. tail_tac ss ds unpack10_tail unpack_elem. Qed.
Lemma pack10_tail2 P : tail_ok 3 2 (fits 10) (fun ss => digits 8 3 (value 10 ss)) (pack10_tail P (P + 2)).
Proof. tail_tac ss ds pack10_tail pack_elem. Qed.
Lemma unpack10_tail2 P : tail_ok 2 3 (fits 8) (fun ss => digits 10 2 (value 8 ss)) (unpack10_tail P (P + 2)).
Proof. tail_tac ss ds unpack10_tail unpack_elem. Qed.
Lemma pack10_tail3 P : tail_ok 4 3 (fits 10) (fun ss => digits 8 4 (value 10 ss)) (pack10_tail P (P + 3)).
Proof. tail_tac ss ds pack10_tail pack_elem. Qed.
Lemma unpack10_tail3 P : tail_ok 3 4 (fits 8) (fun ss => digits 10 3 (value 8 ss)) (unpack10_tail P (P + 3)).
Proof. tail_tac ss ds unpack10_tail unpack_elem. Qed.
Lemma pack12_tail0 P : tail_ok 0 0 (fits 12) (fun ss => digits 8 0 (value 12 ss)) (pack12_tail P (P + 0)).
Proof. tail_tac ss ds pack12_tail pack_elem. Qed.
Lemma unpack12_tail0 P : tail_ok 0 0 (fits 8) (fun ss => digits 12 0 (value 8 ss)) (unpack12_tail P (P + 0)).
Proof. tail_tac ss ds unpack12_tail unpack_elem. Qed.
Lemma pack12_tail1 P : tail_ok 2 1 (fits 12) (fun ss => digits 8 2 (value 12 ss)) (pack12_tail P (P + 1)).
Proof. tail_tac ss ds pack12_tail pack_elem. Qed.
Lemma unpack12_tail1 P : tail_ok 1 2 (fits 8) (fun ss => digits 12 1 (value 8 ss)) (unpack12_tail P (P + 1)).
Proof. tail_tac ss ds unpack12_tail unpack_elem. Qed.

