(** A copy of the table of [SystemTraces]. *)
From Coq Require Import Reals Lra.
From Flocq Require Import Core.
From Verif Require Import Base BaseLemmas Floats FloatLemmas TimeBlockBuffer BitStream BytePacker File StMan StManSpec.
From Verif Require Import StochasticEncoder TimeBlockEncoders TbeExamples Weights WeightSpec Block Column ColumnSpec StoredColumn StoredTraces System SystemSpec SystemTraces UpdateSpec SessionSpec SystemWrite SystemSessions UpdateTraces DamageTraces Removal RemovalTraces Copy CopySpec SystemCopy.
Local Open Scope N_scope.

Definition cman : stman := match copyMan 6 yopened with Ok m => m | _ => yopened end.
(** the rows that are read from the table *)
Definition cD := read_rows ycfg exT 2 yD yman3.
Definition cend : sys ycfg exT 2 := snd (ywritten ycfg exT 2 yg yv cD 6 cman yputs).

Definition is_ok {A} (x : res A) : bool := match x with Ok _ => true | _ => false end.
Lemma ccopied : copyMan 6 yopened = Ok cman.
Proof.
  assert (X : forall d (x : res stman), is_ok x = true -> x = Ok (match x with Ok m => m | _ => d end)) by (intros d [| |] H; trivial; discriminate).
  apply X. vm_compute. reflexivity.
Qed.
Lemma corder : exists ks, sys_order ycfg exT 2 cman cD 6 ks cend.
Proof. eexists. apply ywritten_order. Qed.
Lemma cclosed : all_closed cend.
Proof. apply (closedb_ok ycfg exT 2 yg yv cD 6). vm_compute. reflexivity. Qed.
Lemma cknown : known_settings yman.
Proof. split; [reflexivity|]. split; [reflexivity|]. repeat constructor; now right. Qed.

Lemma half_normal k : (0 <= k <= 9)%Z -> B2R (hf k) = 0%R \/ (bpow radix2 (-126) <= B2R (hf k))%R.
Proof.
  intros H. assert (V : B2R (hf k) = (IZR k * bpow radix2 (-1))%R) by (apply (dy_exact k (-1)); lia). rewrite V.
  destruct (Z.eq_dec k 0) as [->|Nk]; [left; apply Rmult_0_l|right]. apply Rle_trans with (bpow radix2 (-1)); [apply bpow_le; lia|].
  rewrite <- (Rmult_1_l (bpow radix2 (-1))) at 1. apply Rmult_le_compat_r; [apply bpow_ge_0|]. apply IZR_le. lia.
Qed.
Lemma four_normal a b c d : (0 <= a <= 9)%Z -> (0 <= b <= 9)%Z -> (0 <= c <= 9)%Z -> (0 <= d <= 9)%Z ->
  Forall (fun w : f32 => B2R w = 0%R \/ (bpow radix2 (-126) <= B2R w)%R) [hf a; hf b; hf c; hf d].
Proof. intros. repeat apply Forall_cons; try (apply half_normal; assumption). apply Forall_nil. Qed.
Lemma cnormal : normal_weights (ycfg 1) (yD 1).
Proof.
  intros r. change (yD 1 r) with (exW r). unfold exW. destruct r as [|[[[| |]|[| |]|]|[[| |]|[| |]|]|]]; apply four_normal; split; discriminate.
Qed.
