(** Concrete blocks for the examples beside the AF theorems. *)
From Coq Require Import Reals Lra.
From Flocq Require Import Core.
From Verif Require Import Base Floats FloatLemmas TimeBlockBuffer StochasticEncoder EncSpec TimeBlockEncoders TbeSpec TbeExamples AfSpec AfMore.

(** three antennas, one polarization, two channels; the last row is an autocorrelation *)
Definition ablk : tbb cf := [
  DRow 0 1 [(hf 2, hf 4); (hf 6, hf 1)];
  DRow 0 2 [(hf 20, hf (-10)); (hf 3, hf 3)];
  DRow 1 2 [(hf 5, hf (-7)); (hf 30, hf 3)];
  DRow 0 0 [(hf 200, hf 0); (hf 2, nan32)] ].
(** here the fit takes two rounds *)
Definition tblk : tbb cf := [
  DRow 0 1 [(hf 100, hf 4); (hf 100, hf 1)];
  DRow 0 1 [(hf 1, hf 4); (hf 1, hf 1)];
  DRow 0 2 [(hf 10, hf (-10)); (hf 10, hf 10)];
  DRow 1 2 [(hf 10, hf (-10)); (hf 10, hf 10)] ].
(** any values in one sample *)
Definition ablk2 (x y : f32) : tbb cf := [
  DRow 0 1 [(hf 2, hf 4); (hf 6, hf 1)];
  DRow 0 2 [(x, y); (hf 3, hf 3)] ].
(** second channel zero, with one NaN *)
Definition azero : tbb cf := [
  DRow 0 1 [(hf 2, hf 4); (hf 0, hf 0)];
  DRow 0 2 [(hf 5, hf (-7)); (hf 0, nan32)] ].
Definition zblk : tbb cf := [
  DRow 0 1 [(hf 0, hf 0); (hf 0, hf 0)];
  DRow 0 2 [(nan32, hf 0); (hf 0, nan32)] ].

Definition oshows (r : option (res (list cf))) := match r with Some r => shows show2 r | _ => None end.
Definition amap {A} (f : list f32 -> A) (r : option (res (list f32 * list nat))) : option A := match r with Some (Ok (m, _)) => Some (f m) | _ => None end.
Definition syms (r : option (res (list f32 * list nat))) : option (list nat) := match r with Some (Ok (_, s)) => Some s | _ => None end.

Ltac rows_tac := let r := fresh in let I := fresh in intros r I; repeat (destruct I as [<-|I]; [cbn; lia|]); destruct I.
Lemma ablk_rows : rows_of (1 * 2) ablk /\ antennas_below 3 ablk.
Proof. split; rows_tac. Qed.
Lemma tblk_rows : rows_of (1 * 2) tblk /\ antennas_below 3 tblk.
Proof. split; rows_tac. Qed.
Lemma ablk2_rows x y : rows_of (1 * 2) (ablk2 x y) /\ antennas_below 3 (ablk2 x y).
Proof. split; rows_tac. Qed.
Lemma azero_rows : rows_of (1 * 2) azero /\ antennas_below 3 azero.
Proof. split; rows_tac. Qed.
Lemma zblk_rows : rows_of (1 * 2) zblk /\ antennas_below 3 zblk.
Proof. split; rows_tac. Qed.

Lemma ablk_signal i : (i < 2)%nat -> signal i ablk.
Proof.
  intros H. assert (B : (bpow radix2 (-90) <= 1)%R) by (change 1%R with (bpow radix2 0); apply bpow_le; lia). destruct i as [|[|i]]; [| |lia].
  - exists (DRow 0 1 [(hf 2, hf 4); (hf 6, hf 1)]), (hf 2, hf 4), false. split; [now left|]. split; [reflexivity|].
    split; [apply (hf_val 2); lia|]. split; [apply (hf_val 4); lia|]. cbn [part fst]. rewrite (proj2 (hf_val 2 ltac:(lia))), Rabs_pos_eq; lra.
  - exists (DRow 0 1 [(hf 2, hf 4); (hf 6, hf 1)]), (hf 6, hf 1), false. split; [now left|]. split; [reflexivity|].
    split; [apply (hf_val 6); lia|]. split; [apply (hf_val 1); lia|]. cbn [part fst]. rewrite (proj2 (hf_val 6 ltac:(lia))), Rabs_pos_eq; lra.
Qed.

Lemma same2 x y x' y' : is_finite x = false -> is_finite x' = false -> same_counted (ablk2 x y) (ablk2 x' y').
Proof.
  intros F F'. repeat (apply Forall2_cons; [split; [reflexivity|]; split; [reflexivity|];
    repeat (apply Forall2_cons; [first [now left | right; split; intros (A & _); cbn in A; congruence]|]); apply Forall2_nil|]).
  apply Forall2_nil.
Qed.

(** positive normal and at most 2^30 *)
Definition fine (x : f32) : bool := is_finite x && Bleb (lit32 1 (-126)) x && Bleb x (lit32 1 30).
Lemma fine_ok x : fine x = true -> usable x /\ (B2R x <= bpow radix2 30)%R.
Proof.
  unfold fine. intros H. apply andb_prop in H. destruct H as (H & H2). apply andb_prop in H. destruct H as (F & H1).
  destruct (lit32_val 1 (-126) ltac:(lia) ltac:(lia)) as (F1 & E1). destruct (lit32_val 1 30 ltac:(lia) ltac:(lia)) as (F2 & E2).
  rewrite Bleb_correct in H1, H2 by trivial. rewrite E1 in H1. rewrite E2 in H2. rewrite Rmult_1_l in *.
  destruct (Rle_bool_spec (bpow radix2 (-126)) (B2R x)) as [G1|]; [|discriminate]. destruct (Rle_bool_spec (B2R x) (bpow radix2 30)) as [G2|]; [|discriminate]. now repeat split.
Qed.
Lemma fine_phi x y z : fine x = true -> fine y = true -> fine z = true -> (B2R two * (B2R x * B2R y * B2R z) <= bpow radix2 125)%R.
Proof.
  intros H1 H2 H3. apply fine_ok in H1, H2, H3. destruct H1 as ((_ & L1) & U1), H2 as ((_ & L2) & U2), H3 as ((_ & L3) & U3). pose proof (bpow_gt_0 radix2 (-126)) as P.
  unfold two. rewrite (proj2 (lit32_val 1 1 ltac:(lia) ltac:(lia))), Rmult_1_l. apply Rle_trans with (bpow radix2 1 * (bpow radix2 30 * bpow radix2 30 * bpow radix2 30))%R.
  - apply Rmult_le_compat_l; [apply bpow_ge_0|]. repeat apply Rmult_le_compat; try lra; apply Rmult_le_pos; lra.
  - rewrite <- !bpow_plus. apply bpow_le. lia.
Qed.

Lemma quiet1 : quiet 1 azero /\ seen 1 azero.
Proof.
  split.
  - intros row v im I Nv F. assert (Z : B2R (hf 0) = 0%R) by (rewrite (proj2 (hf_val 0 ltac:(lia))); lra).
    destruct I as [<-|[<-|[]]]; injection Nv as <-; destruct im; cbn [part fst snd] in *; first [exact Z|discriminate F].
  - exists (DRow 0 1 [(hf 2, hf 4); (hf 0, hf 0)]), (hf 0, hf 0). split; [now left|]. repeat split; apply (hf_val 0); lia.
Qed.
Lemma quietz : (forall i, quiet i zblk) /\ seen 0 zblk /\ seen 1 zblk.
Proof.
  split; [|split].
  - intros i row v im I Nv F. assert (Z : B2R (hf 0) = 0%R) by (rewrite (proj2 (hf_val 0 ltac:(lia))); lra). apply nth_error_In in Nv.
    repeat (destruct I as [<-|I]; [repeat (destruct Nv as [<-|Nv]; [destruct im; cbn [part fst snd] in *; first [exact Z|discriminate F]|]); destruct Nv|]). destruct I.
  - exists (DRow 0 1 [(hf 0, hf 0); (hf 0, hf 0)]), (hf 0, hf 0). split; [now left|]. repeat split; apply (hf_val 0); lia.
  - exists (DRow 0 1 [(hf 0, hf 0); (hf 0, hf 0)]), (hf 0, hf 0). split; [now left|]. repeat split; apply (hf_val 0); lia.
Qed.
