(** Proofs about the dictionary searches. *)
From Coq Require Import Lia ZifyBool ZifyNat Reals Lra.
From Verif Require Import Base Floats FloatLemmas Dictionary DictSpec.
Ltac Zify.zify_post_hook ::= Z.div_mod_to_equations.

Lemma rd_ok {A} (l : list A) i : (i < length l)%nat -> exists x, nth_error l i = Some x /\ rd l i = Ok x.
Proof.
  intros H. destruct (nth_error l i) eqn:E.
  - exists a. unfold rd. rewrite E. auto.
  - apply nth_error_None in E. lia.
Qed.

Lemma lower_bound_unique l v r r' : is_lower_bound l v r -> is_lower_bound l v r' -> r = r'.
Proof.
  intros (H1 & H2 & H3) (H1' & H2' & H3').
  destruct (Nat.lt_trichotomy r r') as [L|[L|L]]; trivial.
  - destruct (rd_ok l r) as (x & Hx & _); [lia|].
    specialize (H3 _ Hx). specialize (H2' _ _ L Hx). congruence.
  - destruct (rd_ok l r') as (x & Hx & _); [lia|].
    specialize (H3' _ Hx). specialize (H2 _ _ L Hx). congruence.
Qed.

Lemma strictly_sorted_sorted l : strictly_sorted l -> no_nan l -> sorted l.
Proof.
  intros H Hn i j x y Hij Hx Hy.
  destruct (Nat.eq_dec i j) as [->|Hne].
  - rewrite Hx in Hy. injection Hy as <-. apply Bleb_refl.
    apply nth_error_In in Hx. now apply (proj1 (Forall_forall _ _) Hn).
  - apply Bltb_Bleb. apply (H i j); trivial. lia.
Qed.

(** In a sorted list the positions with a value below [v] form a prefix. *)
Lemma sorted_cut l v : sorted l -> exists r, is_lower_bound l v r.
Proof.
  induction l as [|a l IH]; intros Hs.
  - exists 0%nat. repeat split; cbn; try lia. intros x Hx. destruct (0%nat); discriminate.
  - destruct (Bltb a v) eqn:Ea.
    + destruct IH as (r & H1 & H2 & H3).
      { intros i j x y Hij Hx Hy. apply (Hs (S i) (S j)); trivial. lia. }
      exists (S r). repeat split; cbn; try lia.
      * intros i x Hi Hx. destruct i; cbn in Hx; [congruence|]. apply (H2 i); trivial. lia.
      * exact H3.
    + exists 0%nat. repeat split; cbn; try lia. congruence.
Qed.

Lemma cut_spec l v r : sorted l -> is_lower_bound l v r ->
  forall i x, nth_error l i = Some x -> Bltb x v = (i <? r)%nat.
Proof.
  intros Hs (H1 & H2 & H3) i x Hx.
  destruct (Nat.ltb_spec i r) as [L|L].
  - now apply (H2 i).
  - destruct (Bltb x v) eqn:E; trivial.
    assert (i < length l)%nat by (apply nth_error_Some; congruence).
    destruct (rd_ok l r) as (y & Hy & _); [lia|].
    assert (Bltb y v = true).
    { apply Bleb_Bltb_trans with x; trivial. now apply (Hs r i). }
    specialize (H3 _ Hy). congruence.
Qed.

Section Branchless.
Variable strict : bool.
Variable l : list f32.
Variable v : f32.
Variable r : nat.
Notation n := (length l).
Hypothesis Hcut : forall i x, nth_error l i = Some x -> Bltb x v = (i <? r)%nat.
Hypothesis Hr : (r <= n)%nat.
Hypothesis Hn : (1 <= n)%nat.

Definition good_ptr (i : nat) : Prop := strict = true -> (i <= n)%nat.

Lemma ptr_ok i : good_ptr i -> ptr strict l i = Ok i.
Proof.
  intros H. unfold ptr. destruct strict eqn:E; cbn [andb]; trivial.
  destruct (Nat.ltb_spec n i); trivial. specialize (H E). lia.
Qed.

Lemma lb_probe_ok step it : good_ptr (it + Nat.min step (n - 1)) ->
  lb_probe strict l v step it =
  Ok (let q := (it + Nat.min step (n - 1))%nat in if ((q <? n) && (q <? r))%nat then q else it).
Proof.
  intros H. unfold lb_probe. rewrite (ptr_ok _ H). cbn [bind].
  set (q := (it + Nat.min step (n - 1))%nat).
  destruct (Nat.ltb_spec q n) as [L|L]; cbn [andb]; trivial.
  destruct (rd_ok l q L) as (x & Hx & ->). cbn [bind].
  now rewrite (Hcut _ _ Hx).
Qed.

(** loop invariant *)
Definition Inv (step it : nat) : Prop :=
  (it = 0 \/ it < r)%nat /\ (r <= it + Nat.max 1 (2 * step))%nat.
(** pointer validity: used in the strict case only *)
Definition PInv (step it : nat) : Prop :=
  strict = true -> (it + 2 * step <= n + 1)%nat.

Lemma inv_step step it : (1 <= step)%nat -> (step <= n)%nat ->
  (step = 1 \/ Nat.even step = true) -> (step = n -> it = 0)%nat ->
  Inv step it ->
  Inv (Nat.div2 step) (let q := (it + Nat.min step (n - 1))%nat in if ((q <? n) && (q <? r))%nat then q else it).
Proof.
  intros H1 H2 Hev Hit (Ha & Hb). cbn zeta.
  assert (Hd : (step = 1 \/ step = 2 * Nat.div2 step)%nat).
  { destruct Hev as [->|Hev]; [now left|]. right. rewrite <- Nat.double_twice. now apply Nat.even_spec, Nat.Even_double in Hev. }
  assert (Hd1 : step = 1%nat -> Nat.div2 step = 0%nat) by (intros ->; reflexivity).
  unfold Inv.
  destruct (Nat.ltb_spec (it + Nat.min step (n - 1)) n);
  destruct (Nat.ltb_spec (it + Nat.min step (n - 1)) r); cbn [andb]; lia.
Qed.

Lemma pinv_ptr step it : (1 <= step)%nat -> PInv step it -> good_ptr (it + Nat.min step (n - 1)).
Proof. intros H1 H2 E. specialize (H2 E). lia. Qed.

Lemma pinv_step step it : (1 <= step)%nat -> (step = 1 \/ Nat.even step = true) -> PInv step it ->
  PInv (Nat.div2 step) (let q := (it + Nat.min step (n - 1))%nat in if ((q <? n) && (q <? r))%nat then q else it).
Proof.
  intros H1 Hev H2 E. specialize (H2 E). cbn zeta.
  assert (Hd : (step = 1 \/ step = 2 * Nat.div2 step)%nat).
  { destruct Hev as [->|Hev]; [now left|]. right. rewrite <- Nat.double_twice. now apply Nat.even_spec, Nat.Even_double in Hev. }
  assert (Hd1 : step = 1%nat -> Nat.div2 step = 0%nat) by (intros ->; reflexivity).
  destruct (_ && _); lia.
Qed.

Lemma div2_pow2 k : Nat.div2 (2 ^ S k) = (2 ^ k)%nat.
Proof. change (2 ^ S k)%nat with (2 * 2 ^ k)%nat. apply Nat.div2_double. Qed.

Lemma pow2_even k : (2 ^ k = 1 \/ Nat.even (2 ^ k) = true)%nat.
Proof. destruct k; [now left|right]. change (2 ^ S k)%nat with (2 * 2 ^ k)%nat. now rewrite Nat.even_mul. Qed.

Lemma lb_loop_0 fuel it : lb_loop strict l v (S fuel) 0 it = Ok it.
Proof. reflexivity. Qed.

Lemma pow2_pos k : (1 <= 2 ^ k)%nat.
Proof. pose proof (Nat.pow_nonzero 2 k). lia. Qed.

Lemma lb_loop_ok k : forall fuel it,
  (k + 2 <= fuel)%nat -> (2 ^ k <= n)%nat -> (2 ^ k = n -> it = 0)%nat ->
  Inv (2 ^ k) it -> PInv (2 ^ k) it ->
  exists it', lb_loop strict l v fuel (2 ^ k) it = Ok it' /\ Inv 0 it' /\ PInv 0 it'.
Proof.
  induction k as [|k IH]; intros fuel it Hf Hk Hit HI HP.
  - destruct fuel as [|[|fuel]]; try lia. cbn [lb_loop Nat.pow Nat.eqb].
    pose proof (lb_probe_ok 1 it (pinv_ptr 1 it (le_n 1) HP)) as E. rewrite E. cbn [bind].
    eexists. split; [reflexivity|].
    split; [apply (inv_step 1 it) | apply (pinv_step 1 it)]; auto.
  - destruct fuel as [|fuel]; try lia.
    assert (H1 := pow2_pos k). assert (H2 : (2 ^ S k = 2 * 2 ^ k)%nat) by reflexivity.
    cbn [lb_loop]. replace (2 ^ S k =? 0)%nat with false by (symmetry; apply Nat.eqb_neq; lia).
    rewrite lb_probe_ok by (apply pinv_ptr; trivial; lia). cbn [bind].
    rewrite div2_pow2.
    apply IH; try lia.
    + pose proof (inv_step (2 ^ S k) it ltac:(lia) Hk (pow2_even (S k)) Hit HI) as G.
      rewrite div2_pow2 in G. exact G.
    + pose proof (pinv_step (2 ^ S k) it ltac:(lia) (pow2_even (S k)) HP) as G.
      rewrite div2_pow2 in G. exact G.
Qed.

Lemma lb_final_ok it : Inv 0 it -> lb_final strict l v it = Ok r.
Proof.
  intros (Ha & Hb). unfold lb_final. cbn in Hb.
  destruct (Nat.ltb_spec it n) as [L|L].
  - destruct (rd_ok l it L) as (x & Hx & ->). cbn [bind]. rewrite (Hcut _ _ Hx).
    destruct (Nat.ltb_spec it r).
    + rewrite ptr_ok; [f_equal; lia|]. intros _. lia.
    + f_equal. lia.
  - f_equal. lia.
Qed.

Lemma log2_bound : (Nat.log2 n + 1 <= n)%nat.
Proof. pose proof (Nat.log2_lt_lin n ltac:(lia)). lia. Qed.

Lemma lower_bound_branchless_ok : PInv (2 ^ Nat.log2 n) 0 -> lower_bound_branchless strict l v = Ok r.
Proof.
  intros HP. unfold lower_bound_branchless, bit_floor.
  replace (n =? 0)%nat with false by (symmetry; apply Nat.eqb_neq; lia). cbn [bind].
  pose proof (Nat.log2_spec n ltac:(lia)) as [L1 L2].
  assert (HI : Inv (2 ^ Nat.log2 n) 0).
  { split; [now left|]. change (2 ^ S (Nat.log2 n))%nat with (2 * 2 ^ Nat.log2 n)%nat in L2. lia. }
  destruct (lb_loop_ok (Nat.log2 n) (S n) 0) as (it & -> & HI' & HP'); auto.
  { pose proof log2_bound. lia. }
  cbn [bind]. now apply lb_final_ok.
Qed.

Lemma lower_bound_two_ok : PInv (2 ^ Nat.log2 n) 0 -> lower_bound strict l v = Ok r.
Proof.
  intros HP. unfold lower_bound, lower_bound_branchless_two_minimum, bit_floor.
  replace (n =? 0)%nat with false by (symmetry; apply Nat.eqb_neq; lia). cbn [bind].
  pose proof (Nat.log2_spec n ltac:(lia)) as [L1 L2].
  assert (H1 := pow2_pos (Nat.log2 n)).
  assert (HI : Inv (2 ^ Nat.log2 n) 0).
  { split; [now left|]. change (2 ^ S (Nat.log2 n))%nat with (2 * 2 ^ Nat.log2 n)%nat in L2. lia. }
  rewrite lb_probe_ok by (apply pinv_ptr; trivial). cbn [bind].
  pose proof (inv_step _ 0 H1 L1 (pow2_even _) ltac:(auto) HI) as HI1.
  pose proof (pinv_step _ 0 H1 (pow2_even _) HP) as HP1.
  cbn zeta in HI1, HP1 |- *.
  match type of HI1 with Inv _ ?i => set (it1 := i) in * end. clearbody it1. pose proof log2_bound as LB.
  destruct (Nat.log2 n) as [|k].
  - cbn [Nat.pow Nat.div2] in *. rewrite lb_loop_0. cbn [bind]. now apply lb_final_ok.
  - rewrite div2_pow2 in *. 
    destruct (lb_loop_ok k (S n) it1) as (it & -> & HI' & HP'); auto; try lia.
    + change (2 ^ S k)%nat with (2 * 2 ^ k)%nat in L1. lia.
    + change (2 ^ S k)%nat with (2 * 2 ^ k)%nat in L1. pose proof (pow2_pos k). lia.
    + cbn [bind]. now apply lb_final_ok.
Qed.
End Branchless.

(** ** The bisecting variants *)
Section Bisect.
Variable l : list f32.
Variable v : f32.
Notation n := (length l).
Hypothesis Hs : strictly_sorted l.
Hypothesis Hnn : no_nan l.
Hypothesis Hn : (1 <= n)%nat.

Definition BInv (p q : nat) : Prop :=
  (p < q <= n)%nat /\
  (p = 0%nat \/ exists x, nth_error l p = Some x /\ Bleb x v = true) /\
  (q = n \/ exists x, nth_error l q = Some x /\ Bleb x v = false).

Lemma bis_final_ok p q : BInv p q -> (p + 1 = q)%nat ->
  exists r, bis_final l v (p, q) = Ok r /\ is_lower_bound l v r.
Proof.
  intros (H1 & H2 & H3) Hpq. unfold bis_final.
  destruct (rd_ok l p ltac:(lia)) as (x & Hx & ->). cbn [bind].
  eexists. split; [reflexivity|].
  destruct (Bltb x v) eqn:E.
  - repeat split; try lia.
    + intros i y Hi Hy. destruct (Nat.eq_dec i p) as [->|]; [congruence|].
      apply Bleb_Bltb_trans with x; trivial. apply Bltb_Bleb. apply (Hs i p); trivial. lia.
    + intros y Hy. destruct H3 as [->|(z & Hz & Ez)].
      * assert (n < n)%nat; [|lia]. apply nth_error_Some. congruence.
      * rewrite Hy in Hz. injection Hz as <-.
        destruct (Bltb y v) eqn:E'; trivial. apply Bltb_Bleb in E'. congruence.
  - repeat split; try lia.
    + intros i y Hi Hy. destruct H2 as [->|(z & Hz & Ez)]; [lia|].
      rewrite Hx in Hz. injection Hz as <-.
      apply Bltb_Bleb_trans with x; trivial. now apply (Hs i p).
    + congruence.
Qed.

Lemma binv_step p q m x : BInv p q -> (p < m < q)%nat -> nth_error l m = Some x ->
  if Bleb x v then BInv m q else BInv p m.
Proof.
  intros (H1 & H2 & H3) Hm Hx. destruct (Bleb x v) eqn:E.
  - repeat split; try lia; trivial. right. eauto.
  - repeat split; try lia; trivial. right. eauto.
Qed.

Lemma bis_loop_ok : forall fuel p q, (q - p <= fuel)%nat -> BInv p q ->
  exists p' q', bis_loop l v fuel p q = Ok (p', q') /\ BInv p' q' /\ (p' + 1 = q')%nat.
Proof.
  induction fuel as [|fuel IH]; intros p q Hf HI.
  - destruct HI. lia.
  - cbn [bis_loop]. destruct (Nat.eqb_spec (p + 1) q) as [E|E].
    + exists p, q. auto.
    + set (m := Nat.div (p + q) 2).
      assert (Hm : (p < m < q)%nat) by (destruct HI; unfold m; lia).
      destruct (rd_ok l m) as (x & Hx & ->); [destruct HI; lia|]. cbn [bind].
      pose proof (binv_step p q m x HI Hm Hx) as G.
      destruct (Bleb x v); apply IH; trivial; lia.
Qed.

Lemma slow_loop_ok : forall fuel p q, (q - p <= fuel)%nat -> BInv p q ->
  exists p' q', slow_loop l v fuel p q = Ok (p', q') /\ BInv p' q' /\ (p' + 1 = q')%nat.
Proof.
  induction fuel as [|fuel IH]; intros p q Hf HI.
  - destruct HI. lia.
  - cbn [slow_loop]. destruct (Nat.eqb_spec (p + 1) q) as [E|E].
    + exists p, q. auto.
    + set (m := (p + Nat.div (q - p) 2)%nat).
      assert (Hm : (p < m < q)%nat) by (destruct HI; unfold m; lia).
      destruct (rd_ok l m) as (x & Hx & ->); [destruct HI; lia|]. cbn [bind].
      pose proof (binv_step p q m x HI Hm Hx) as G.
      destruct (Bleb x v); apply IH; trivial; lia.
Qed.

Lemma binv_start : BInv 0 n.
Proof. repeat split; try lia; auto. Qed.

Lemma one_minimum_ok : exists r, lower_bound_one_minimum l v = Ok r /\ is_lower_bound l v r.
Proof.
  unfold lower_bound_one_minimum.
  destruct (bis_loop_ok (S n) 0 n ltac:(lia) binv_start) as (p & q & -> & HI & Hpq).
  cbn [bind]. now apply bis_final_ok.
Qed.

Lemma slow_ok : exists r, lower_bound_slow l v = Ok r /\ is_lower_bound l v r.
Proof.
  unfold lower_bound_slow.
  destruct (slow_loop_ok (S n) 0 n ltac:(lia) binv_start) as (p & q & -> & HI & Hpq).
  cbn [bind]. now apply bis_final_ok.
Qed.

Lemma two_minimum_ok : (2 <= n)%nat -> exists r, lower_bound_two_minimum l v = Ok r /\ is_lower_bound l v r.
Proof.
  intros H2. unfold lower_bound_two_minimum.
  set (m := Nat.div (0 + n) 2).
  assert (Hm : (0 < m < n)%nat) by (unfold m; lia).
  destruct (rd_ok l m) as (x & Hx & ->); [lia|]. cbn [bind].
  pose proof (binv_step 0 n m x binv_start Hm Hx) as G.
  destruct (Bleb x v).
  - destruct (bis_loop_ok (S n) m n ltac:(lia) G) as (p & q & -> & HI & Hpq).
    cbn [bind]. now apply bis_final_ok.
  - destruct (bis_loop_ok (S n) 0 m ltac:(lia) G) as (p & q & -> & HI & Hpq).
    cbn [bind]. now apply bis_final_ok.
Qed.
End Bisect.

(** ** Statements used by the property file *)
Lemma lower_bound_correct l v : (1 <= length l)%nat -> sorted l ->
  exists r, lower_bound false l v = Ok r /\ is_lower_bound l v r.
Proof.
  intros Hn Hs. destruct (sorted_cut l v Hs) as (r & Hr). exists r. split; trivial.
  apply lower_bound_two_ok; trivial; try apply Hr.
  - now apply cut_spec.
  - discriminate.
Qed.

Lemma branchless_correct l v : (1 <= length l)%nat -> sorted l ->
  exists r, lower_bound_branchless false l v = Ok r /\ is_lower_bound l v r.
Proof.
  intros Hn Hs. destruct (sorted_cut l v Hs) as (r & Hr). exists r. split; trivial.
  apply lower_bound_branchless_ok; trivial; try apply Hr.
  - now apply cut_spec.
  - discriminate.
Qed.

Lemma lower_bound_strict_correct l v k : (length l + 1 = 2 ^ k)%nat -> (1 <= length l)%nat -> sorted l ->
  exists r, lower_bound true l v = Ok r /\ is_lower_bound l v r.
Proof.
  intros Hk Hn Hs. destruct (sorted_cut l v Hs) as (r & Hr). exists r. split; trivial.
  apply lower_bound_two_ok; trivial; try apply Hr.
  - now apply cut_spec.
  - intros _. destruct k as [|k]; [cbn in Hk; lia|].
    change (2 ^ S k)%nat with (2 * 2 ^ k)%nat in Hk.
    assert (Nat.log2 (length l) = k); [|subst k; lia].
    apply Nat.log2_unique; [lia|]. change (2 ^ S k)%nat with (2 * 2 ^ k)%nat. lia.
Qed.

Lemma variants_agree l v : (2 <= length l)%nat -> strictly_sorted l -> no_nan l ->
  exists r, is_lower_bound l v r /\
    lower_bound false l v = Ok r /\
    lower_bound_branchless false l v = Ok r /\
    lower_bound_two_minimum l v = Ok r /\
    lower_bound_one_minimum l v = Ok r /\
    lower_bound_slow l v = Ok r.
Proof.
  intros Hn Hs Hnn. pose proof (strictly_sorted_sorted l Hs Hnn) as Hso.
  destruct (lower_bound_correct l v ltac:(lia) Hso) as (r & E & Hr).
  exists r. split; trivial. split; trivial.
  destruct (branchless_correct l v ltac:(lia) Hso) as (r1 & E1 & H1).
  destruct (two_minimum_ok l v Hs ltac:(lia) ltac:(lia)) as (r2 & E2 & H2).
  destruct (one_minimum_ok l v Hs ltac:(lia)) as (r3 & E3 & H3).
  destruct (slow_ok l v Hs ltac:(lia)) as (r4 & E4 & H4).
  rewrite <- (lower_bound_unique _ _ _ _ Hr H1) in E1.
  rewrite <- (lower_bound_unique _ _ _ _ Hr H2) in E2.
  rewrite <- (lower_bound_unique _ _ _ _ Hr H3) in E3.
  rewrite <- (lower_bound_unique _ _ _ _ Hr H4) in E4.
  auto.
Qed.

(** ** Deciding sortedness (for the examples) *)
Fixpoint chainb (c : f32 -> f32 -> bool) (l : list f32) : bool :=
  match l with
  | x :: ((y :: _) as t) => c x y && chainb c t
  | _ => true
  end.

Lemma chainb_lt (c : f32 -> f32 -> bool) :
  (forall x y z, c x y = true -> c y z = true -> c x z = true) ->
  forall l, chainb c l = true ->
  forall i j x y, (i < j)%nat -> nth_error l i = Some x -> nth_error l j = Some y -> c x y = true.
Proof.
  intros Ht l Hl.
  assert (Hhd : forall l a, chainb c (a :: l) = true -> forall j y, nth_error l j = Some y -> c a y = true).
  { clear l Hl. induction l as [|b l IH]; intros a H j y Hy.
    - destruct j; discriminate.
    - cbn [chainb] in H. apply andb_true_iff in H. destruct H as [H1 H2].
      destruct j; cbn in Hy; [congruence|]. apply Ht with b; trivial. now apply (IH b H2 j). }
  induction l as [|a l IH]; intros i j x y Hij Hx Hy.
  - destruct i; discriminate.
  - destruct j; [lia|]. cbn in Hy. destruct i; cbn in Hx.
    + injection Hx as <-. now apply (Hhd l a Hl j).
    + apply (IH ltac:(destruct l; [reflexivity|cbn [chainb] in Hl; apply andb_true_iff in Hl; apply Hl]) i j); trivial. lia.
Qed.

Lemma strictly_sorted_dec l : chainb Bltb l = true -> strictly_sorted l.
Proof.
  intros H. unfold strictly_sorted. apply chainb_lt; trivial.
  intros x y z H1 H2. apply Bltb_Bleb_trans with y; trivial. now apply Bltb_Bleb.
Qed.

Lemma sorted_dec l : chainb Bleb l = true -> forallb (fun x => negb (is_nan x)) l = true -> sorted l.
Proof.
  intros H Hn i j x y Hij Hx Hy. destruct (Nat.eq_dec i j) as [->|Hne].
  - rewrite Hx in Hy. injection Hy as <-. apply Bleb_refl.
    rewrite forallb_forall in Hn. apply nth_error_In, Hn in Hx. now apply negb_true_iff.
  - revert Hx Hy. apply chainb_lt; trivial; [|lia].
    intros a b d. apply Bleb_trans.
Qed.
