(** Proofs about the byte layout of a block: generic part. *)
From Flocq Require Import IEEE754.Bits.
From Flocq Require Binary.
From Verif Require Import Base BaseLemmas Floats TimeBlockBuffer BytePacker BitStream BytePackerProofs BytePackerWhole BytePackerTop PackPrefix
  StochasticEncoder EncSpec StochasticEncoderProofs TimeBlockEncoders TbeSpec TbeLoops Weights Block BlockSpec.
From Coq Require Import ZifyNat ZifyN.

(** ** Floats as bytes *)
Lemma float_bytes_length x : length (float_bytes x) = 4.
Proof. apply digits_length. Qed.
Lemma float_bytes_fits x : fits 8 (float_bytes x).
Proof. apply digits_fits. Qed.

Lemma float_of_bytes x : float_of (float_bytes x) = x.
Proof.
  unfold float_of, float_bytes. rewrite value_digits.
  pose proof (bits_of_binary_float_range 23 8 eq_refl eq_refl (Binary.BSN2B 24 128 nan_bits x)) as R.
  unfold bits_of_b32. set (z := bits_of_binary_float 23 8 _) in *.
  change (2 ^ (23 + 8 + 1))%Z with (2 ^ 32)%Z in R. change (2 ^ (8 * N.of_nat 4))%N with (2 ^ 32)%N.
  rewrite N.mod_small by lia. rewrite Z2N.id by lia. unfold z, b32_of_bits.
  rewrite binary_float_of_bits_of_binary_float. now destruct x.
Qed.

Lemma floats_length n : forall l, length (floats n l) = n.
Proof. induction n as [|n IH]; intros l; cbn; [reflexivity|]. now rewrite IH. Qed.
Lemma first_app {A} (a l : list A) n : length a = n -> firstn n (a ++ l) = a /\ skipn n (a ++ l) = l.
Proof. intros <-. rewrite firstn_app, skipn_app, Nat.sub_diag, firstn_all, skipn_all. cbn. now rewrite app_nil_r. Qed.
Lemma floats_bytes m : forall rest, floats (length m) (concat (map float_bytes m) ++ rest) = m.
Proof.
  induction m as [|x m IH]; intro rest; [reflexivity|]. cbn [length map concat floats]. rewrite <- app_assoc.
  destruct (first_app (float_bytes x) (concat (map float_bytes m) ++ rest) 4 (float_bytes_length x)) as [-> ->]. now rewrite float_of_bytes, IH.
Qed.
Lemma bytes_length m : length (concat (map float_bytes m)) = 4 * length m.
Proof. induction m as [|x m IH]; [reflexivity|]. cbn [map concat length]. rewrite app_length, float_bytes_length, IH. lia. Qed.
Lemma bytes_fits m : fits 8 (concat (map float_bytes m)).
Proof. induction m as [|x m IH]; [constructor|]. cbn [map concat]. apply fits_app. split; [apply float_bytes_fits|exact IH]. Qed.

(** ** One block through the bytes *)
Lemma block_bytes c bits nRows nAnt g b packed sym m s k : supported bits -> thread_buffers c bits nRows nAnt packed sym ->
  encode c g nAnt b (floats (nMetaFloats c nRows nAnt) packed) sym = Ok (m, s) ->
  length m = nMetaFloats c nRows nAnt -> length s = nSymbols c nRows -> fits 32 s -> k <= nSymbols c nRows -> fits bits (firstn k s) ->
  exists block packed', encodeAndWrite c bits nRows nAnt g b packed sym = Ok (block, (packed', s)) /\
    length block = CalculateBlockSize c bits nRows nAnt /\ fits 8 block /\ thread_buffers c bits nRows nAnt packed' s /\
    encode c g nAnt b (floats (nMetaFloats c nRows nAnt) packed) sym = Ok (floats (nMetaFloats c nRows nAnt) block, s) /\
    forall sym0, length sym0 = nSymbols c nRows -> exists s', length s' = nSymbols c nRows /\ fits bits s' /\ firstn k s' = firstn k s /\
      forall ants, loadBlock c bits nRows nAnt ants block sym0 =
        do f <- initializeDecode c m nRows nAnt;
        mapM (fun row => decode c f s' row (fst (ants row)) (snd (ants row))) (seq 0 nRows).
Proof.
  intros Sb (Lp & Ls0 & Fp & Fs) E Lm Ls F32 Hk Fk. unfold encodeAndWrite.
  unfold CalculateBlockSize in Lp. rewrite E. cbn [bind].
  replace (length packed <? 4 * nMetaFloats c nRows nAnt) with false by (symmetry; apply Nat.ltb_ge; lia).
  set (rest := skipn (4 * nMetaFloats c nRows nAnt) packed) in *.
  assert (Lr : length rest = binarySize c bits nRows) by (unfold rest; rewrite skipn_length; lia).
  assert (Fr : fits 8 rest) by (unfold fits in *; rewrite <- (firstn_skipn (4 * nMetaFloats c nRows nAnt) packed) in Fp; now apply Forall_app in Fp).
  assert (Hb : bsz (nSymbols c nRows) bits = binarySize c bits nRows) by reflexivity.
  destruct (pack_prefix bits k (nSymbols c nRows) rest s (repeat 0%N (nSymbols c nRows)) Sb Hk) as (bin & _ & P & Lb & Fb & _ & _); [lia|lia|rewrite repeat_length; lia|exact Fk|exact Fr|].
  rewrite P. cbn [bind].
  assert (Lc : length (concat (map float_bytes m) ++ bin) = CalculateBlockSize c bits nRows nAnt) by (rewrite app_length, bytes_length; unfold CalculateBlockSize; lia).
  unfold rds. cbn [Nat.add skipn]. rewrite Lc. unfold CalculateBlockSize at 1. rewrite Nat.leb_refl. cbn [bind]. rewrite firstn_all2 by (unfold CalculateBlockSize in *; lia).
  assert (Fc : fits 8 (concat (map float_bytes m) ++ bin)) by (apply fits_app; split; [apply bytes_fits|exact Fb]).
  eexists. eexists. split; [reflexivity|]. split; [exact Lc|]. split; [exact Fc|]. split; [split; [exact Lc|split; [lia|split; [exact Fc|exact F32]]]|].
  split; [rewrite <- Lm at 1; now rewrite floats_bytes|].
  intros sym0 L0. destruct (pack_prefix bits k (nSymbols c nRows) rest s sym0 Sb Hk) as (bin' & s' & P' & _ & _ & _ & U & L' & F' & K'); [lia|lia|lia|exact Fk|exact Fr|].
  rewrite P in P'. injection P' as <-. exists s'. split; [lia|]. split; [rewrite <- (firstn_all2 s' (n := nSymbols c nRows)) by lia; exact F'|]. split; [exact K'|].
  intro ants. unfold loadBlock. replace (length (concat (map float_bytes m) ++ bin) <? 4 * nMetaFloats c nRows nAnt) with false by (symmetry; apply Nat.ltb_ge; rewrite Lc; unfold CalculateBlockSize; lia).
  replace (skipn (4 * nMetaFloats c nRows nAnt) (concat (map float_bytes m) ++ bin)) with bin.
  2:{ rewrite <- Lm, <- bytes_length, skipn_app, Nat.sub_diag, skipn_all2 by lia. reflexivity. }
  rewrite U. cbn [bind]. rewrite <- Lm at 1. now rewrite floats_bytes.
Qed.

(** ** Decoding one row looks only at the symbols of that row *)
Lemma mapM_ext {A B} (f g : A -> res B) l : (forall a, In a l -> f a = g a) -> mapM f l = mapM g l.
Proof. induction l as [|a l IH]; intro H; [reflexivity|]. cbn. rewrite (H a) by (now left). now rewrite IH by (intros x I; apply H; now right). Qed.

Lemma decode_row_ext e n s s' r f f' : (forall i, i < n -> f i = f' i) ->
  (forall j, r * (n * 2) <= j < (r + 1) * (n * 2) -> nth_error s j = nth_error s' j) ->
  decode_row e n (n * 2) s r f = decode_row e n (n * 2) s' r f'.
Proof.
  intros Hf Hs. unfold decode_row. apply mapM_ext. intros i Hi. apply in_seq in Hi. rewrite Hf by lia. unfold rd. now rewrite !Hs by lia.
Qed.

Lemma decode_ok e s : well_formed e -> s < QuantizationCount e -> exists q, Decode e s = Ok q.
Proof.
  intros W H. unfold Decode, QuantizationCount in *. destruct (wf_slack e W) as (rest & ->). unfold rd.
  destruct (nth_some (dec e ++ nan32 :: rest) s) as (q & ->); [rewrite app_length; cbn; lia|]. now exists q.
Qed.

Lemma decode_row_ok e n s r f : well_formed e -> (forall i, i < n -> exists x, f i = Ok x) -> (r + 1) * (n * 2) <= length s ->
  Forall (fun x => x < QuantizationCount e) s -> exists out, decode_row e n (n * 2) s r f = Ok out /\ length out = n.
Proof.
  intros W Hf Hs Fs.
  assert (G : forall i, i < n -> exists v, (do x <- f i; do s1 <- rd s (r * (n * 2) + i * 2); do re <- Decode e s1; do s2 <- rd s (r * (n * 2) + i * 2 + 1); do im <- Decode e s2;
            Ok (to32 (mul64 (to64 re) x), to32 (mul64 (to64 im) x))) = Ok v).
  { intros i Hi. destruct (Hf i Hi) as (x & ->). cbn [bind]. rewrite Forall_forall in Fs.
    destruct (rd_ok s (r * (n * 2) + i * 2)) as (s1 & -> & N1); [nia|]. cbn [bind]. destruct (decode_ok e s1 W) as (re & ->); [apply Fs; now apply nth_error_In in N1|]. cbn [bind].
    destruct (rd_ok s (r * (n * 2) + i * 2 + 1)) as (s2 & -> & N2); [nia|]. cbn [bind]. destruct (decode_ok e s2 W) as (im & ->); [apply Fs; now apply nth_error_In in N2|]. cbn [bind]. eauto. }
  unfold decode_row. destruct (mapM_ok (fun i => do x <- f i; do s1 <- rd s (r * (n * 2) + i * 2); do re <- Decode e s1; do s2 <- rd s (r * (n * 2) + i * 2 + 1); do im <- Decode e s2;
            Ok (to32 (mul64 (to64 re) x), to32 (mul64 (to64 im) x))) (fun _ _ => True) (seq 0 n)) as (out & E & F2).
  { intros i Hi. apply in_seq in Hi. destruct (G i ltac:(lia)) as (v & E). exists v. now split. }
  exists out. split; [exact E|]. apply Forall2_len in F2. now rewrite seq_length in F2.
Qed.

(** ** Symbols as [nat] and as [N] *)
Lemma to_of_nat l : map N.to_nat (map N.of_nat l) = l.
Proof. rewrite map_map. rewrite <- map_id. apply map_ext. intro. apply Nat2N.id. Qed.
Lemma of_nat_fits w l n : (forall x, In x l -> x < n) -> (N.of_nat n <= 2 ^ w)%N -> fits w (map N.of_nat l).
Proof. intros H Hn. apply Forall_forall. intros x I. apply in_map_iff in I. destruct I as (y & <- & I). specialize (H y I). lia. Qed.
Lemma to_nat_below w l n : fits w l -> N.of_nat n = (2 ^ w)%N -> Forall (fun x => x < n) (map N.to_nat l).
Proof. intros F Hn. apply Forall_forall. intros x I. apply in_map_iff in I. destruct I as (y & <- & I). unfold fits in F. rewrite Forall_forall in F. specialize (F y I). lia. Qed.
