(** Whole pack/unpack loops. *)
From Verif Require Import Base BytePacker BitStream BytePackerProofs.
From Coq Require Import ZifyBool ZifyNat ZifyN.
Local Open Scope N_scope.
Ltac Zify.zify_post_hook ::= Z.div_mod_to_equations.

(* ------------------------------------------------------------------ *)
(** * Whole loops *)

Lemma loop_ok wi wo ks kd g :
  wi * N.of_nat ks = wo * N.of_nat kd ->
  group_ok ks kd (fits wi) (fun ss => digits wo kd (value wi ss)) g ->
  forall q, group_ok (q * ks) (q * kd) (fits wi) (fun ss => digits wo (q * kd) (value wi ss)) (loop q g).
Proof.
  intros Hw Hg. induction q as [|q IH]; intros l ss srest d ds drest Hs Hd Hf.
  - apply length_zero_iff_nil in Hs; apply length_zero_iff_nil in Hd; subst. reflexivity.
  - cbn [loop]. unfold seqM.
    rewrite <- (firstn_skipn ks ss) in Hf |- *. rewrite <- (firstn_skipn kd ds).
    set (s1 := firstn ks ss) in *. set (s2 := skipn ks ss) in *.
    assert (L1 : length s1 = ks) by (unfold s1; rewrite firstn_length; lia).
    assert (L2 : length s2 = (q * ks)%nat) by (unfold s2; rewrite skipn_length; lia).
    assert (L3 : length (firstn kd ds) = kd) by (rewrite firstn_length; lia).
    assert (L4 : length (skipn kd ds) = (q * kd)%nat) by (rewrite skipn_length; lia).
    unfold fits in Hf. apply Forall_app in Hf. destruct Hf as [Hf1 Hf2].
    rewrite <- !app_assoc. rewrite Hg by assumption. cbn [bind].
    rewrite IH by assumption. apply f_equal.
    rewrite rev_app_distr, <- app_assoc. f_equal.
    rewrite value_app, L1, Hw. change (S q * kd)%nat with (kd + q * kd)%nat.
    rewrite digits_split.
    + now rewrite rev_app_distr, <- app_assoc.
    + rewrite <- Hw, <- L1. now apply value_bound.
Qed.

(** loop followed by the partial group *)
Lemma loop_tail_ok wi wo ks kd g q ts td t :
  wi * N.of_nat ks = wo * N.of_nat kd ->
  group_ok ks kd (fits wi) (fun ss => digits wo kd (value wi ss)) g ->
  tail_ok td ts (fits wi) (fun ss => digits wo td (value wi ss)) t ->
  forall ss srest ds drest,
    length ss = (q * ks + ts)%nat -> length ds = (q * kd + td)%nat -> fits wi ss ->
    run (loop q g ;; t) (ss ++ srest) (ds ++ drest) =
    Ok (digits wo (q * kd + td) (value wi ss) ++ drest).
Proof.
  intros Hw Hg Ht ss srest ds drest Hs Hd Hf. unfold run, seqM.
  rewrite <- (firstn_skipn (q * ks) ss) in Hf |- *. rewrite <- (firstn_skipn (q * kd) ds).
  set (s1 := firstn (q * ks) ss) in *. set (s2 := skipn (q * ks) ss) in *.
  assert (L1 : length s1 = (q * ks)%nat) by (unfold s1; rewrite firstn_length; lia).
  assert (L2 : length s2 = ts) by (unfold s2; rewrite skipn_length; lia).
  assert (L3 : length (firstn (q * kd) ds) = (q * kd)%nat) by (rewrite firstn_length; lia).
  assert (L4 : length (skipn (q * kd) ds) = td) by (rewrite skipn_length; lia).
  unfold fits in Hf. apply Forall_app in Hf. destruct Hf as [Hf1 Hf2].
  rewrite <- !app_assoc. rewrite (loop_ok wi wo ks kd g Hw Hg q) by assumption. cbn [bind].
  destruct (Ht (rev s1 ++ []) s2 srest (rev (digits wo (q * kd) (value wi s1)) ++ [])
               (skipn (q * kd) ds) drest L2 L4 Hf2) as [r [-> Hr]].
  cbn [bind]. apply f_equal. rewrite Hr, app_nil_r, rev_involutive.
  rewrite value_app, L1.
  replace (wi * N.of_nat (q * ks)) with (wo * N.of_nat (q * kd)) by nia.
  rewrite digits_split.
  - now rewrite <- app_assoc.
  - replace (wo * N.of_nat (q * kd)) with (wi * N.of_nat (length s1)) by nia. now apply value_bound.
Qed.

Lemma skip_tail_ok wi wo : tail_ok 0 0 (fits wi) (fun ss => digits wo 0 (value wi ss)) skip.
Proof.
  intros l ss srest d ds drest Hs Hd Hf.
  apply length_zero_iff_nil in Hs; apply length_zero_iff_nil in Hd; subst.
  eexists; split; reflexivity.
Qed.

Lemma run_skip m src dst : run (m ;; skip) src dst = run m src dst.
Proof. unfold run, seqM, skip. destruct (m _); reflexivity. Qed.

Definition bsz (n : nat) (b : N) : nat := N.to_nat (bufferSize (N.of_nat n) b).

Lemma pack2_ok n ss srest ds drest :
  length ss = n -> length ds = bsz n 2 -> fits 2 ss ->
  run (pack2 n) (ss ++ srest) (ds ++ drest) = Ok (digits 8 (bsz n 2) (value 2 ss) ++ drest).
Proof.
  intros Hs Hd Hf. unfold pack2. cbv zeta.
  pose proof (Nat.div_mod n 4 ltac:(discriminate)) as Hn.
  pose proof (Nat.mod_upper_bound n 4 ltac:(discriminate)) as Hr.
  remember (Nat.modulo n 4) as r eqn:Er. clear Er. set (q := Nat.div n 4) in *. clearbody q.
  assert (E : n = (q * 4 + r)%nat) by lia. clear Hn. rewrite E in Hs, Hd |- *. clear E.
  unfold bsz, bufferSize in *.
  destruct r as [|[|[|[|r]]]]; [..|exfalso; lia].
  - replace (N.to_nat ((N.of_nat (q * 4 + 0) * 2 + 7) / 8)) with (q * 1 + 0)%nat in * by lia.
    apply (loop_tail_ok 2 8 4 1 pack2_group q 0 0); [reflexivity|apply pack2_group_ok|apply pack2_tail0|lia|lia|assumption].
  - replace (N.to_nat ((N.of_nat (q * 4 + 1) * 2 + 7) / 8)) with (q * 1 + 1)%nat in * by lia.
    apply (loop_tail_ok 2 8 4 1 pack2_group q 1 1); [reflexivity|apply pack2_group_ok|apply pack2_tail1|lia|lia|assumption].
  - replace (N.to_nat ((N.of_nat (q * 4 + 2) * 2 + 7) / 8)) with (q * 1 + 1)%nat in * by lia.
    apply (loop_tail_ok 2 8 4 1 pack2_group q 2 1); [reflexivity|apply pack2_group_ok|apply pack2_tail2|lia|lia|assumption].
  - replace (N.to_nat ((N.of_nat (q * 4 + 3) * 2 + 7) / 8)) with (q * 1 + 1)%nat in * by lia.
    apply (loop_tail_ok 2 8 4 1 pack2_group q 3 1); [reflexivity|apply pack2_group_ok|apply pack2_tail3|lia|lia|assumption].
Qed.

Lemma unpack2_ok n ss srest ds drest :
  length ss = bsz n 2 -> length ds = n -> fits 8 ss ->
  run (unpack2 n) (ss ++ srest) (ds ++ drest) = Ok (digits 2 n (value 8 ss) ++ drest).
Proof.
  intros Hs Hd Hf. unfold unpack2. cbv zeta.
  pose proof (Nat.div_mod n 4 ltac:(discriminate)) as Hn.
  pose proof (Nat.mod_upper_bound n 4 ltac:(discriminate)) as Hr.
  remember (Nat.modulo n 4) as r eqn:Er. clear Er. set (q := Nat.div n 4) in *. clearbody q.
  assert (E : n = (q * 4 + r)%nat) by lia. clear Hn. rewrite E in Hs, Hd |- *. clear E.
  unfold bsz, bufferSize in *.
  destruct r as [|[|[|[|r]]]]; [..|exfalso; lia].
  - apply (loop_tail_ok 8 2 1 4 unpack2_group q 0 0); [reflexivity|apply unpack2_group_ok|apply unpack2_tail0|lia|lia|assumption].
  - apply (loop_tail_ok 8 2 1 4 unpack2_group q 1 1); [reflexivity|apply unpack2_group_ok|apply unpack2_tail1|lia|lia|assumption].
  - apply (loop_tail_ok 8 2 1 4 unpack2_group q 1 2); [reflexivity|apply unpack2_group_ok|apply unpack2_tail2|lia|lia|assumption].
  - apply (loop_tail_ok 8 2 1 4 unpack2_group q 1 3); [reflexivity|apply unpack2_group_ok|apply unpack2_tail3|lia|lia|assumption].
Qed.

Lemma pack3_ok n ss srest ds drest :
  length ss = n -> length ds = bsz n 3 -> fits 3 ss ->
  run (pack3 n) (ss ++ srest) (ds ++ drest) = Ok (digits 8 (bsz n 3) (value 3 ss) ++ drest).
Proof.
  intros Hs Hd Hf. unfold pack3. cbv zeta.
  pose proof (Nat.div_mod n 8 ltac:(discriminate)) as Hn.
  pose proof (Nat.mod_upper_bound n 8 ltac:(discriminate)) as Hr.
  remember (Nat.modulo n 8) as r eqn:Er. clear Er. set (q := Nat.div n 8) in *. clearbody q.
  assert (E : n = (q * 8 + r)%nat) by lia. clear Hn. rewrite E in Hs, Hd |- *. clear E.
  unfold bsz, bufferSize in *.
  destruct r as [|[|[|[|[|[|[|[|r]]]]]]]]; [..|exfalso; lia].
  - replace (N.to_nat ((N.of_nat (q * 8 + 0) * 3 + 7) / 8)) with (q * 3 + 0)%nat in * by lia.
    apply (loop_tail_ok 3 8 8 3 pack3_group q 0 0); [reflexivity|apply pack3_group_ok|apply pack3_tail0|lia|lia|assumption].
  - replace (N.to_nat ((N.of_nat (q * 8 + 1) * 3 + 7) / 8)) with (q * 3 + 1)%nat in * by lia.
    apply (loop_tail_ok 3 8 8 3 pack3_group q 1 1); [reflexivity|apply pack3_group_ok|apply pack3_tail1|lia|lia|assumption].
  - replace (N.to_nat ((N.of_nat (q * 8 + 2) * 3 + 7) / 8)) with (q * 3 + 1)%nat in * by lia.
    apply (loop_tail_ok 3 8 8 3 pack3_group q 2 1); [reflexivity|apply pack3_group_ok|apply pack3_tail2|lia|lia|assumption].
  - replace (N.to_nat ((N.of_nat (q * 8 + 3) * 3 + 7) / 8)) with (q * 3 + 2)%nat in * by lia.
    apply (loop_tail_ok 3 8 8 3 pack3_group q 3 2); [reflexivity|apply pack3_group_ok|apply pack3_tail3|lia|lia|assumption].
  - replace (N.to_nat ((N.of_nat (q * 8 + 4) * 3 + 7) / 8)) with (q * 3 + 2)%nat in * by lia.
    apply (loop_tail_ok 3 8 8 3 pack3_group q 4 2); [reflexivity|apply pack3_group_ok|apply pack3_tail4|lia|lia|assumption].
  - replace (N.to_nat ((N.of_nat (q * 8 + 5) * 3 + 7) / 8)) with (q * 3 + 2)%nat in * by lia.
    apply (loop_tail_ok 3 8 8 3 pack3_group q 5 2); [reflexivity|apply pack3_group_ok|apply pack3_tail5|lia|lia|assumption].
  - replace (N.to_nat ((N.of_nat (q * 8 + 6) * 3 + 7) / 8)) with (q * 3 + 3)%nat in * by lia.
    apply (loop_tail_ok 3 8 8 3 pack3_group q 6 3); [reflexivity|apply pack3_group_ok|apply pack3_tail6|lia|lia|assumption].
  - replace (N.to_nat ((N.of_nat (q * 8 + 7) * 3 + 7) / 8)) with (q * 3 + 3)%nat in * by lia.
    apply (loop_tail_ok 3 8 8 3 pack3_group q 7 3); [reflexivity|apply pack3_group_ok|apply pack3_tail7|lia|lia|assumption].
Qed.

Lemma unpack3_ok n ss srest ds drest :
  length ss = bsz n 3 -> length ds = n -> fits 8 ss ->
  run (unpack3 n) (ss ++ srest) (ds ++ drest) = Ok (digits 3 n (value 8 ss) ++ drest).
Proof.
  intros Hs Hd Hf. unfold unpack3. cbv zeta.
  pose proof (Nat.div_mod n 8 ltac:(discriminate)) as Hn.
  pose proof (Nat.mod_upper_bound n 8 ltac:(discriminate)) as Hr.
  remember (Nat.modulo n 8) as r eqn:Er. clear Er. set (q := Nat.div n 8) in *. clearbody q.
  assert (E : n = (q * 8 + r)%nat) by lia. clear Hn. rewrite E in Hs, Hd |- *. clear E.
  unfold bsz, bufferSize in *.
  destruct r as [|[|[|[|[|[|[|[|r]]]]]]]]; [..|exfalso; lia].
  - apply (loop_tail_ok 8 3 3 8 unpack3_group q 0 0); [reflexivity|apply unpack3_group_ok|apply unpack3_tail0|lia|lia|assumption].
  - apply (loop_tail_ok 8 3 3 8 unpack3_group q 1 1); [reflexivity|apply unpack3_group_ok|apply unpack3_tail1|lia|lia|assumption].
  - apply (loop_tail_ok 8 3 3 8 unpack3_group q 1 2); [reflexivity|apply unpack3_group_ok|apply unpack3_tail2|lia|lia|assumption].
  - apply (loop_tail_ok 8 3 3 8 unpack3_group q 2 3); [reflexivity|apply unpack3_group_ok|apply unpack3_tail3|lia|lia|assumption].
  - apply (loop_tail_ok 8 3 3 8 unpack3_group q 2 4); [reflexivity|apply unpack3_group_ok|apply unpack3_tail4|lia|lia|assumption].
  - apply (loop_tail_ok 8 3 3 8 unpack3_group q 2 5); [reflexivity|apply unpack3_group_ok|apply unpack3_tail5|lia|lia|assumption].
  - apply (loop_tail_ok 8 3 3 8 unpack3_group q 3 6); [reflexivity|apply unpack3_group_ok|apply unpack3_tail6|lia|lia|assumption].
  - apply (loop_tail_ok 8 3 3 8 unpack3_group q 3 7); [reflexivity|apply unpack3_group_ok|apply unpack3_tail7|lia|lia|assumption].
Qed.

Lemma pack4_ok n ss srest ds drest :
  length ss = n -> length ds = bsz n 4 -> fits 4 ss ->
  run (pack4 n) (ss ++ srest) (ds ++ drest) = Ok (digits 8 (bsz n 4) (value 4 ss) ++ drest).
Proof.
  intros Hs Hd Hf. unfold pack4. cbv zeta.
  pose proof (Nat.div_mod n 2 ltac:(discriminate)) as Hn.
  pose proof (Nat.mod_upper_bound n 2 ltac:(discriminate)) as Hr.
  remember (Nat.modulo n 2) as r eqn:Er. clear Er. set (q := Nat.div n 2) in *. clearbody q.
  assert (E : n = (q * 2 + r)%nat) by lia. clear Hn. rewrite E in Hs, Hd |- *. clear E.
  unfold bsz, bufferSize in *.
  destruct r as [|[|r]]; [..|exfalso; lia].
  - replace (N.to_nat ((N.of_nat (q * 2 + 0) * 4 + 7) / 8)) with (q * 1 + 0)%nat in * by lia.
    apply (loop_tail_ok 4 8 2 1 pack4_group q 0 0); [reflexivity|apply pack4_group_ok|apply pack4_tail0|lia|lia|assumption].
  - replace (N.to_nat ((N.of_nat (q * 2 + 1) * 4 + 7) / 8)) with (q * 1 + 1)%nat in * by lia.
    apply (loop_tail_ok 4 8 2 1 pack4_group q 1 1); [reflexivity|apply pack4_group_ok|apply pack4_tail1|lia|lia|assumption].
Qed.

Lemma unpack4_ok n ss srest ds drest :
  length ss = bsz n 4 -> length ds = n -> fits 8 ss ->
  run (unpack4 n) (ss ++ srest) (ds ++ drest) = Ok (digits 4 n (value 8 ss) ++ drest).
Proof.
  intros Hs Hd Hf. unfold unpack4. cbv zeta.
  pose proof (Nat.div_mod n 2 ltac:(discriminate)) as Hn.
  pose proof (Nat.mod_upper_bound n 2 ltac:(discriminate)) as Hr.
  remember (Nat.modulo n 2) as r eqn:Er. clear Er. set (q := Nat.div n 2) in *. clearbody q.
  assert (E : n = (q * 2 + r)%nat) by lia. clear Hn. rewrite E in Hs, Hd |- *. clear E.
  unfold bsz, bufferSize in *.
  destruct r as [|[|r]]; [..|exfalso; lia].
  - apply (loop_tail_ok 8 4 1 2 unpack4_group q 0 0); [reflexivity|apply unpack4_group_ok|apply unpack4_tail0|lia|lia|assumption].
  - apply (loop_tail_ok 8 4 1 2 unpack4_group q 1 1); [reflexivity|apply unpack4_group_ok|apply unpack4_tail1|lia|lia|assumption].
Qed.

Lemma pack6_ok n ss srest ds drest :
  length ss = n -> length ds = bsz n 6 -> fits 6 ss ->
  run (pack6 n) (ss ++ srest) (ds ++ drest) = Ok (digits 8 (bsz n 6) (value 6 ss) ++ drest).
Proof.
  intros Hs Hd Hf. unfold pack6. cbv zeta.
  pose proof (Nat.div_mod n 4 ltac:(discriminate)) as Hn.
  pose proof (Nat.mod_upper_bound n 4 ltac:(discriminate)) as Hr.
  remember (Nat.modulo n 4) as r eqn:Er. clear Er. set (q := Nat.div n 4) in *. clearbody q.
  assert (E : n = (q * 4 + r)%nat) by lia. clear Hn. rewrite E in Hs, Hd |- *. clear E.
  unfold bsz, bufferSize in *.
  destruct r as [|[|[|[|r]]]]; [..|exfalso; lia].
  - replace (N.to_nat ((N.of_nat (q * 4 + 0) * 6 + 7) / 8)) with (q * 3 + 0)%nat in * by lia.
    apply (loop_tail_ok 6 8 4 3 pack6_group q 0 0); [reflexivity|apply pack6_group_ok|apply pack6_tail0|lia|lia|assumption].
  - replace (N.to_nat ((N.of_nat (q * 4 + 1) * 6 + 7) / 8)) with (q * 3 + 1)%nat in * by lia.
    apply (loop_tail_ok 6 8 4 3 pack6_group q 1 1); [reflexivity|apply pack6_group_ok|apply pack6_tail1|lia|lia|assumption].
  - replace (N.to_nat ((N.of_nat (q * 4 + 2) * 6 + 7) / 8)) with (q * 3 + 2)%nat in * by lia.
    apply (loop_tail_ok 6 8 4 3 pack6_group q 2 2); [reflexivity|apply pack6_group_ok|apply pack6_tail2|lia|lia|assumption].
  - replace (N.to_nat ((N.of_nat (q * 4 + 3) * 6 + 7) / 8)) with (q * 3 + 3)%nat in * by lia.
    apply (loop_tail_ok 6 8 4 3 pack6_group q 3 3); [reflexivity|apply pack6_group_ok|apply pack6_tail3|lia|lia|assumption].
Qed.

Lemma unpack6_ok n ss srest ds drest :
  length ss = bsz n 6 -> length ds = n -> fits 8 ss ->
  run (unpack6 n) (ss ++ srest) (ds ++ drest) = Ok (digits 6 n (value 8 ss) ++ drest).
Proof.
  intros Hs Hd Hf. unfold unpack6. cbv zeta.
  pose proof (Nat.div_mod n 4 ltac:(discriminate)) as Hn.
  pose proof (Nat.mod_upper_bound n 4 ltac:(discriminate)) as Hr.
  remember (Nat.modulo n 4) as r eqn:Er. clear Er. set (q := Nat.div n 4) in *. clearbody q.
  assert (E : n = (q * 4 + r)%nat) by lia. clear Hn. rewrite E in Hs, Hd |- *. clear E.
  unfold bsz, bufferSize in *.
  destruct r as [|[|[|[|r]]]]; [..|exfalso; lia].
  - apply (loop_tail_ok 8 6 3 4 unpack6_group q 0 0); [reflexivity|apply unpack6_group_ok|apply unpack6_tail0|lia|lia|assumption].
  - apply (loop_tail_ok 8 6 3 4 unpack6_group q 1 1); [reflexivity|apply unpack6_group_ok|apply unpack6_tail1|lia|lia|assumption].
  - apply (loop_tail_ok 8 6 3 4 unpack6_group q 2 2); [reflexivity|apply unpack6_group_ok|apply unpack6_tail2|lia|lia|assumption].
  - apply (loop_tail_ok 8 6 3 4 unpack6_group q 3 3); [reflexivity|apply unpack6_group_ok|apply unpack6_tail3|lia|lia|assumption].
Qed.

Lemma pack10_ok n ss srest ds drest :
  length ss = n -> length ds = bsz n 10 -> fits 10 ss ->
  run (pack10 n) (ss ++ srest) (ds ++ drest) = Ok (digits 8 (bsz n 10) (value 10 ss) ++ drest).
Proof.
  intros Hs Hd Hf. unfold pack10. cbv zeta.
  pose proof (Nat.div_mod n 4 ltac:(discriminate)) as Hn.
  pose proof (Nat.mod_upper_bound n 4 ltac:(discriminate)) as Hr.
  remember (Nat.modulo n 4) as r eqn:Er. clear Er. set (q := Nat.div n 4) in *. clearbody q.
  assert (E : n = (q * 4 + r)%nat) by lia. clear Hn. rewrite E in Hs, Hd |- *. clear E.
  unfold bsz, bufferSize in *.
  destruct r as [|[|[|[|r]]]]; [..|exfalso; lia].
  - replace (N.to_nat ((N.of_nat (q * 4 + 0) * 10 + 7) / 8)) with (q * 5 + 0)%nat in * by lia.
    apply (loop_tail_ok 10 8 4 5 pack10_group q 0 0); [reflexivity|apply pack10_group_ok|apply pack10_tail0|lia|lia|assumption].
  - replace (N.to_nat ((N.of_nat (q * 4 + 1) * 10 + 7) / 8)) with (q * 5 + 2)%nat in * by lia.
    apply (loop_tail_ok 10 8 4 5 pack10_group q 1 2); [reflexivity|apply pack10_group_ok|apply pack10_tail1|lia|lia|assumption].
  - replace (N.to_nat ((N.of_nat (q * 4 + 2) * 10 + 7) / 8)) with (q * 5 + 3)%nat in * by lia.
    apply (loop_tail_ok 10 8 4 5 pack10_group q 2 3); [reflexivity|apply pack10_group_ok|apply pack10_tail2|lia|lia|assumption].
  - replace (N.to_nat ((N.of_nat (q * 4 + 3) * 10 + 7) / 8)) with (q * 5 + 4)%nat in * by lia.
    apply (loop_tail_ok 10 8 4 5 pack10_group q 3 4); [reflexivity|apply pack10_group_ok|apply pack10_tail3|lia|lia|assumption].
Qed.

Lemma unpack10_ok n ss srest ds drest :
  length ss = bsz n 10 -> length ds = n -> fits 8 ss ->
  run (unpack10 n) (ss ++ srest) (ds ++ drest) = Ok (digits 10 n (value 8 ss) ++ drest).
Proof.
  intros Hs Hd Hf. unfold unpack10. cbv zeta.
  pose proof (Nat.div_mod n 4 ltac:(discriminate)) as Hn.
  pose proof (Nat.mod_upper_bound n 4 ltac:(discriminate)) as Hr.
  remember (Nat.modulo n 4) as r eqn:Er. clear Er. set (q := Nat.div n 4) in *. clearbody q.
  assert (E : n = (q * 4 + r)%nat) by lia. clear Hn. rewrite E in Hs, Hd |- *. clear E.
  unfold bsz, bufferSize in *.
  destruct r as [|[|[|[|r]]]]; [..|exfalso; lia].
  - apply (loop_tail_ok 8 10 5 4 unpack10_group q 0 0); [reflexivity|apply unpack10_group_ok|apply unpack10_tail0|lia|lia|assumption].
  - apply (loop_tail_ok 8 10 5 4 unpack10_group q 2 1); [reflexivity|apply unpack10_group_ok|apply unpack10_tail1|lia|lia|assumption].
  - apply (loop_tail_ok 8 10 5 4 unpack10_group q 3 2); [reflexivity|apply unpack10_group_ok|apply unpack10_tail2|lia|lia|assumption].
  - apply (loop_tail_ok 8 10 5 4 unpack10_group q 4 3); [reflexivity|apply unpack10_group_ok|apply unpack10_tail3|lia|lia|assumption].
Qed.

Lemma pack12_ok n ss srest ds drest :
  length ss = n -> length ds = bsz n 12 -> fits 12 ss ->
  run (pack12 n) (ss ++ srest) (ds ++ drest) = Ok (digits 8 (bsz n 12) (value 12 ss) ++ drest).
Proof.
  intros Hs Hd Hf. unfold pack12. cbv zeta.
  pose proof (Nat.div_mod n 2 ltac:(discriminate)) as Hn.
  pose proof (Nat.mod_upper_bound n 2 ltac:(discriminate)) as Hr.
  remember (Nat.modulo n 2) as r eqn:Er. clear Er. set (q := Nat.div n 2) in *. clearbody q.
  assert (E : n = (q * 2 + r)%nat) by lia. clear Hn. rewrite E in Hs, Hd |- *. clear E.
  unfold bsz, bufferSize in *.
  destruct r as [|[|r]]; [..|exfalso; lia].
  - replace (N.to_nat ((N.of_nat (q * 2 + 0) * 12 + 7) / 8)) with (q * 3 + 0)%nat in * by lia.
    apply (loop_tail_ok 12 8 2 3 pack12_group q 0 0); [reflexivity|apply pack12_group_ok|apply pack12_tail0|lia|lia|assumption].
  - replace (N.to_nat ((N.of_nat (q * 2 + 1) * 12 + 7) / 8)) with (q * 3 + 2)%nat in * by lia.
    apply (loop_tail_ok 12 8 2 3 pack12_group q 1 2); [reflexivity|apply pack12_group_ok|apply pack12_tail1|lia|lia|assumption].
Qed.

Lemma unpack12_ok n ss srest ds drest :
  length ss = bsz n 12 -> length ds = n -> fits 8 ss ->
  run (unpack12 n) (ss ++ srest) (ds ++ drest) = Ok (digits 12 n (value 8 ss) ++ drest).
Proof.
  intros Hs Hd Hf. unfold unpack12. cbv zeta.
  pose proof (Nat.div_mod n 2 ltac:(discriminate)) as Hn.
  pose proof (Nat.mod_upper_bound n 2 ltac:(discriminate)) as Hr.
  remember (Nat.modulo n 2) as r eqn:Er. clear Er. set (q := Nat.div n 2) in *. clearbody q.
  assert (E : n = (q * 2 + r)%nat) by lia. clear Hn. rewrite E in Hs, Hd |- *. clear E.
  unfold bsz, bufferSize in *.
  destruct r as [|[|r]]; [..|exfalso; lia].
  - apply (loop_tail_ok 8 12 3 2 unpack12_group q 0 0); [reflexivity|apply unpack12_group_ok|apply unpack12_tail0|lia|lia|assumption].
  - apply (loop_tail_ok 8 12 3 2 unpack12_group q 2 1); [reflexivity|apply unpack12_group_ok|apply unpack12_tail1|lia|lia|assumption].
Qed.

Lemma pack8_ok n ss srest ds drest :
  length ss = n -> length ds = bsz n 8 -> fits 8 ss ->
  run (pack8 n) (ss ++ srest) (ds ++ drest) = Ok (digits 8 (bsz n 8) (value 8 ss) ++ drest).
Proof.
  intros Hs Hd Hf. rewrite <- run_skip. unfold pack8.
  replace (bsz n 8) with (n * 1 + 0)%nat in * by (unfold bsz, bufferSize; lia).
  apply (loop_tail_ok 8 8 1 1 _ n 0 0); [reflexivity|apply pack8_group_ok|apply skip_tail_ok|lia|lia|assumption].
Qed.

Lemma unpack8_ok n ss srest ds drest :
  length ss = bsz n 8 -> length ds = n -> fits 8 ss ->
  run (unpack8 n) (ss ++ srest) (ds ++ drest) = Ok (digits 8 n (value 8 ss) ++ drest).
Proof.
  intros Hs Hd Hf. rewrite <- run_skip. unfold unpack8.
  replace n with (n * 1 + 0)%nat at 2 by lia.
  apply (loop_tail_ok 8 8 1 1 _ n 0 0); [reflexivity|apply unpack8_group_ok|apply skip_tail_ok| |lia|assumption].
  rewrite Hs. unfold bsz, bufferSize. lia.
Qed.

Lemma pack16_ok n ss srest ds drest :
  length ss = n -> length ds = bsz n 16 -> fits 16 ss ->
  run (pack16 n) (ss ++ srest) (ds ++ drest) = Ok (digits 8 (bsz n 16) (value 16 ss) ++ drest).
Proof.
  intros Hs Hd Hf. rewrite <- run_skip. unfold pack16.
  replace (bsz n 16) with (n * 2 + 0)%nat in * by (unfold bsz, bufferSize; lia).
  apply (loop_tail_ok 16 8 1 2 _ n 0 0); [reflexivity|apply pack16_group_ok|apply skip_tail_ok|lia|lia|assumption].
Qed.

Lemma unpack16_ok n ss srest ds drest :
  length ss = bsz n 16 -> length ds = n -> fits 8 ss ->
  run (unpack16 n) (ss ++ srest) (ds ++ drest) = Ok (digits 16 n (value 8 ss) ++ drest).
Proof.
  intros Hs Hd Hf. rewrite <- run_skip. unfold unpack16.
  replace n with (n * 1 + 0)%nat at 2 by lia.
  apply (loop_tail_ok 8 16 2 1 _ n 0 0); [reflexivity|apply unpack16_group_ok|apply skip_tail_ok| |lia|assumption].
  rewrite Hs. unfold bsz, bufferSize. lia.
Qed.

