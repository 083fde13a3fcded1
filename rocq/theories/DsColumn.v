(** A table that dscompress accepts meets the conditions for writing it in row order. *)
From Verif Require Import Base Floats FloatLemmas Dscompress DsSpec DsProofs TimeBlockBuffer Column ColumnSpec.
From Coq Require Import List.

(** the column reads its keys and antennas from this table; rows behind the table have antenna 0 *)
Definition describes (e : env) (rows : list ms_row) : Prop :=
  (forall i j x y, nth_error rows i = Some x -> nth_error rows j = Some y -> (same_keys e (N.of_nat i) (N.of_nat j) <-> same_key y x)) /\
  (forall r, ants e r = match nth_error rows (N.to_nat r) with Some x => (Z.to_nat (ant1 x), Z.to_nat (ant2 x)) | None => (0, 0)%nat end).

Lemma neighbours_same_first e rows b : describes e rows -> forall k, (forall i x, nth_error b i = Some x -> nth_error rows (k + i) = Some x) ->
  neighbours same_key b -> forall i, (i < length b)%nat -> same_keys e (N.of_nat (k + i)) (N.of_nat k).
Proof.
  intros [K _] k S N. induction i as [|i IH]; intros L; [rewrite Nat.add_0_r; now repeat split|].
  destruct (nth_error b i) as [x|] eqn:Ex; [|apply nth_error_None in Ex; lia]. destruct (nth_error b (Datatypes.S i)) as [y|] eqn:Ey; [|apply nth_error_None in Ey; lia].
  assert (H : same_key x y).
  { apply nth_error_split in Ex as (p & q & -> & Lp). rewrite nth_error_app2 in Ey by lia. replace (Datatypes.S i - length p)%nat with 1%nat in Ey by lia.
    destruct q as [|z q]; [discriminate|]. injection Ey as ->. now apply (N p x y q). }
  apply (K (k + Datatypes.S i)%nat (k + i)%nat y x) in H; auto. destruct IH as (A & B & C); [lia|]. destruct H as (A' & B' & C').
  repeat split; congruence.
Qed.

Lemma accepted_table e r0 rows : describes e (r0 :: rows) -> validate (r0 :: rows) = Ok tt ->
  (exists x, In x rows /\ ~ same_key r0 x) ->
  exists n na, first_block e n /\ antenna_count e n na /\ (n < N.of_nat (length (r0 :: rows)))%N /\
    forall r, (fst (ants e r) < na)%nat /\ (snd (ants e r) < na)%nat.
Proof.
  intros DE V (x & Ix & Dx). pose proof DE as [K An].
  assert (NN : is_nan (Dscompress.time r0) = false).
  { destruct (is_nan (Dscompress.time r0)) eqn:Q; trivial. now rewrite validate_nan in V. }
  apply (validate_regular r0 rows NN) in V as (blocks & E & NB & F & D & bl & M).
  destruct blocks as [|b bs]; [contradiction|]. inversion F as [|? ? [Nb Kb] F']; subst. inversion M as [|? ? Eb M']; subst.
  cbn in E.
  assert (S0 : forall i y, nth_error b i = Some y -> nth_error (r0 :: rows) (0 + i) = Some y).
  { intros i y H. rewrite E. cbn. rewrite nth_error_app1; trivial. apply nth_error_Some. congruence. }
  pose proof (neighbours_same_first e _ b DE 0 S0 Kb) as Same.
  destruct bs as [|b2 bs].
  { exfalso. apply Dx. cbn in E. rewrite app_nil_r in E. apply (In_nth_error) in Ix as [i Hi].
    specialize (Same (S i)). destruct (K (S i) 0%nat x r0 Hi eq_refl) as [K1 _]. apply K1. apply Same. rewrite <- E. cbn.
    assert (i < length rows)%nat by (apply nth_error_Some; congruence). lia. }
  apply neighbours_uncons in D as [D1 _]. inversion F' as [|? ? [Nb2 Kb2] F'']; subst.
  destruct b2 as [|y b2]; [contradiction|].
  destruct (exists_last Nb) as (p & z & Ebz).
  assert (Dz : ~ same_key z y) by (eapply D1; eauto).
  assert (Hy : nth_error (r0 :: rows) (length b) = Some y).
  { rewrite E, nth_error_app2, Nat.sub_diag by lia. reflexivity. }
  assert (Hz : nth_error (r0 :: rows) (length p) = Some z).
  { rewrite E, Ebz, <- app_assoc, nth_error_app2, Nat.sub_diag by lia. reflexivity. }
  assert (Lp : length b = S (length p)) by (rewrite Ebz, app_length; cbn; lia).
  set (na := S (fold_right (fun r m => Nat.max m (Nat.max (Z.to_nat (ant1 r)) (Z.to_nat (ant2 r)))) 0%nat b)).
  assert (Bd : forall r, In r b -> (Z.to_nat (ant1 r) < na)%nat /\ (Z.to_nat (ant2 r) < na)%nat).
  { unfold na. clear. induction b as [|a b IH]; [easy|]. intros r [->|I]; cbn; [lia|]. specialize (IH r I). lia. }
  assert (Mx : exists r, In r b /\ (na = S (Z.to_nat (ant1 r)) \/ na = S (Z.to_nat (ant2 r)))).
  { unfold na. clear - Nb. induction b as [|a b IH]; [contradiction|]. destruct b as [|a' b].
    - exists a. split; [now left|]. cbn. lia.
    - destruct IH as (r & I & H); [discriminate|]. set (f := fun (r : ms_row) (m : nat) => Nat.max m (Nat.max (Z.to_nat (ant1 r)) (Z.to_nat (ant2 r)))) in *.
      change (fold_right f 0%nat (a :: a' :: b)) with (f a (fold_right f 0%nat (a' :: b))). set (m := fold_right f 0%nat (a' :: b)) in *. unfold f in *.
      destruct (Nat.le_gt_cases (Nat.max (Z.to_nat (ant1 a)) (Z.to_nat (ant2 a))) m).
      + exists r. split; [now right|]. lia.
      + exists a. split; [now left|]. lia. }
  exists (N.of_nat (length b)), na. split.
  { split; [rewrite Lp; lia|]. split.
    - intros r Hr. specialize (Same (N.to_nat r)). cbn in Same. rewrite N2Nat.id in Same. apply Same. lia.
    - intros H. apply Dz. apply (K (length b) (length p) y z Hy Hz). specialize (Same (length p)). cbn in Same.
      destruct Same as (A & B & C); [lia|]. destruct H as (A' & B' & C'). cbn in *. repeat split; congruence. }
  assert (Row : forall r q, nth_error (r0 :: rows) (N.to_nat r) = Some q -> exists q', In q' b /\ baseline q' = baseline q).
  { intros r q H. apply nth_error_In in H. rewrite E in H. apply in_app_iff in H as [H|H]; [eauto|].
    change ((y :: b2) ++ List.concat bs) with (List.concat ((y :: b2) :: bs)) in H. apply in_concat in H as (c & Hc & Hq).
    rewrite Forall_forall in M'. specialize (M' c Hc). apply (in_map baseline) in Hq. rewrite M' in Hq. apply in_map_iff in Hq as (q' & Eq & I).
    exists q'. now split. }
  split.
  { split.
    - intros r Hr. rewrite An. destruct (nth_error b (N.to_nat r)) as [q|] eqn:Eq; [|apply nth_error_None in Eq; lia].
      pose proof (S0 _ _ Eq) as Q0. cbn [plus] in Q0. rewrite Q0. apply Bd. eapply nth_error_In; eauto.
    - destruct Mx as (q & I & H). apply In_nth_error in I as [i Hi]. exists (N.of_nat i). split.
      + assert (i < length b)%nat by (apply nth_error_Some; congruence). lia.
      + rewrite An, Nat2N.id. pose proof (S0 _ _ Hi) as Q0. cbn [plus] in Q0. now rewrite Q0. }
  split. { rewrite E, app_length. cbn. lia. }
  intros r. rewrite An. destruct (nth_error (r0 :: rows) (N.to_nat r)) as [q|] eqn:Eq; [|unfold na; cbn; lia].
  destruct (Row r q Eq) as (q' & I & Bl). unfold baseline in Bl. injection Bl as B1 B2. rewrite <- B1, <- B2. now apply Bd.
Qed.

From Verif Require Import ColumnOrder.

Lemma accepted_written e (D : N -> list (data e)) r0 rows : (nthreads e <> 0)%nat -> (forall r, (nSamp e <= length (D r))%nat) ->
  describes e (r0 :: rows) -> validate (r0 :: rows) = Ok tt -> (exists x, In x rows /\ ~ same_key r0 x) ->
  forall o k (s : state e), in_order o D k s ->
    status s <> Undefined /\
    (k = N.of_nat (length (r0 :: rows)) -> closed s = true -> code s = [] -> status s = Running ->
      exists n, first_block e n /\ forall r, (r < k)%N -> exists y x rw, file s (r / n)%N = Some y /\ enc e n (nant s) x y /\
        nth_error x (N.to_nat (r mod n)) = Some rw /\ visibilities rw = firstn (nSamp e) (D r)).
Proof.
  intros NT HD DE V X o k s O. destruct (accepted_table e r0 rows DE V X) as (n & na & Fb & Ac & Ln & Al). split.
  - eapply order_no_ub; eauto.
  - intros Ek Cl Cd R. exists n. split; trivial. rewrite <- Ek in Ln.
    destruct (order_on_disk o D HD k n na s NT O R Cl Cd Fb Ac (or_introl Ln)) as (_ & -> & G). exact G.
Qed.
