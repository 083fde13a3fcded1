(** Concrete blocks for the examples beside the encoder theorems. *)
From Coq Require Import Reals Lra.
From Flocq Require Import Core.
From Verif Require Import Base Floats FloatLemmas DictSpec DictionaryProofs TimeBlockBuffer StochasticEncoder EncSpec TimeBlockEncoders TbeSpec.

Lemma lit32_val m ex : (Z.abs m < 2 ^ 24)%Z -> (-149 <= ex <= 104)%Z -> is_finite (lit32 m ex) = true /\ B2R (lit32 m ex) = (IZR m * bpow radix2 ex)%R.
Proof. intros H1 H2. apply (dy_exact (p := 24) (e := 128)); [exact H1|lia|lia]. Qed.

(** levels -2, 0, 2 with boundaries -1, 1 *)
Definition ex3 : encoder := Encoder [lit32 (-1) 0; lit32 1 0; max32] [lit32 (-1) 1; lit32 0 0; lit32 1 1] [nan32].
Definition two : f32 := lit32 1 1.

Lemma ex3_levels : levels ex3 two.
Proof.
  constructor.
  - constructor; try reflexivity.
    + cbn; lia.
    + apply sorted_dec; vm_compute; reflexivity.
    + apply strictly_sorted_dec; vm_compute; reflexivity.
    + repeat constructor.
    + now exists [].
  - reflexivity.
  - unfold two. rewrite (proj2 (lit32_val 1 1 ltac:(lia) ltac:(lia))). cbn. lra.
  - exists (lit32 (-1) 1). split; [reflexivity|]. unfold two.
    rewrite (proj2 (lit32_val 1 1 ltac:(lia) ltac:(lia))), (proj2 (lit32_val (-1) 1 ltac:(lia) ltac:(lia))).
    replace (IZR (-1) * bpow radix2 1 + 1 * bpow radix2 1)%R with 0%R by (cbn; lra). rewrite Rabs_R0. cbn. lra.
Qed.

(** integers and halves *)
Definition hf (z : Z) : f32 := lit32 z (-1).
Definition inf32 : f32 := B754_infinity false.

(** one polarization, two channels; the last row holds non-finite components, the third is zero *)
Definition blk : tbb cf := [
  DRow 0 1 [(hf 2, hf 1); (hf (-6), hf 3)];
  DRow 0 2 [(hf 8, hf 8); (hf 1, nan32)];
  DRow 1 1 [(hf 0, hf 0); (hf 0, hf 0)];
  DRow 1 2 [(inf32, hf 100); (hf 2, hf 2)] ].
(** like [blk], with other values in the sample that is not counted *)
Definition blk' : tbb cf := [
  DRow 0 1 [(hf 2, hf 1); (hf (-6), hf 3)];
  DRow 0 2 [(hf 8, hf 8); (hf 1, nan32)];
  DRow 1 1 [(hf 0, hf 0); (hf 0, hf 0)];
  DRow 1 2 [(nan32, inf32); (hf 2, hf 2)] ].

Lemma blk_rows : rows_of (1 * 2) blk.
Proof. intros r I. repeat (destruct I as [<-|I]; [reflexivity|]). destruct I. Qed.

Lemma blk_same : same_counted blk blk'.
Proof.
  repeat (apply Forall2_cons; [split; [reflexivity|]; split; [reflexivity|];
    repeat (apply Forall2_cons; [first [now left | right; split; intros (A & _); discriminate A]|]); apply Forall2_nil|]).
  apply Forall2_nil.
Qed.

(** all dither values equal *)
Definition dith (z : Z) : option (nat -> Z) := Some (fun _ => z).
(** buffers filled with rubbish *)
Definition mbuf (n : nat) : list f32 := repeat (hf 77) n.
Definition sbuf (n : nat) : list nat := repeat 9%nat n.

(** in printable form: multiples of 1/1024, rounded towards 0 *)
Inductive shown := Num (z : Z) | Inf | NaN.
Definition show (x : f32) : shown :=
  match x with
  | B754_zero _ => Num 0
  | B754_infinity _ => Inf
  | B754_nan => NaN
  | B754_finite s m ex _ =>
    let k := (ex + 10)%Z in let a := if (0 <=? k)%Z then (Zpos m * 2 ^ k)%Z else (Zpos m / 2 ^ (- k))%Z in
    Num (if s then - a else a)
  end.
Definition shows {A B} (f : A -> B) (r : res (list A)) : option (list B) := match r with Ok l => Some (map f l) | _ => None end.
Definition show2 (v : cf) : shown * shown := (show (fst v), show (snd v)).

(** a channel without signal *)
Definition zero_chan : tbb cf := [DRow 0 1 [(hf 2, hf 1); (hf 0, hf 0)]].

(** levels -25, 0, 25 *)
Definition ex25 : encoder := Encoder [lit32 (-1) 0; lit32 1 0; max32] [lit32 (-25) 0; lit32 0 0; lit32 25 0] [nan32].
Lemma ex25_levels : levels ex25 (lit32 25 0).
Proof.
  constructor.
  - constructor; try reflexivity.
    + cbn; lia.
    + apply sorted_dec; vm_compute; reflexivity.
    + apply strictly_sorted_dec; vm_compute; reflexivity.
    + repeat constructor.
    + now exists [].
  - reflexivity.
  - rewrite (proj2 (lit32_val 25 0 ltac:(lia) ltac:(lia))). cbn. lra.
  - exists (lit32 (-25) 0). split; [reflexivity|].
    rewrite (proj2 (lit32_val 25 0 ltac:(lia) ltac:(lia))), (proj2 (lit32_val (-25) 0 ltac:(lia) ltac:(lia))).
    replace (IZR (-25) * bpow radix2 0 + 25 * bpow radix2 0)%R with 0%R by (cbn; lra). rewrite Rabs_R0. cbn. lra.
Qed.

Lemma hf_val z : (Z.abs z < 2 ^ 24)%Z -> is_finite (hf z) = true /\ B2R (hf z) = (IZR z / 2)%R.
Proof. intros H. destruct (lit32_val z (-1) H ltac:(lia)) as (A & B). split; [exact A|]. unfold hf. rewrite B. cbn. lra. Qed.

(** the largest magnitude of the first row of [blk] is 3, that of its only polarization too *)
Lemma blk_max : forall row, nth_error blk 0 = Some row -> largest (row_mags row) 3 /\ largest (pol_mags 1 0 row) 3.
Proof.
  intros row E. injection E as <-.
  assert (B : forall v im, In v [(hf 2, hf 1); (hf (-6), hf 3)] -> (Rabs (B2R (part im v)) <= 3)%R).
  { intros v im [<-|[<-|[]]]; destruct im; cbn [part fst snd]; match goal with |- context [hf ?z] => rewrite (proj2 (hf_val z ltac:(lia))) end; apply Rabs_le; lra. }
  assert (C : counted (hf (-6), hf 3)) by (split; [apply (hf_val (-6)); lia|left; apply (hf_val 3); lia]).
  assert (E3 : (3 = Rabs (B2R (part false (hf (-6), hf 3))))%R) by (cbn [part fst]; rewrite (proj2 (hf_val (-6) ltac:(lia))); rewrite Rabs_left; lra).
  split; (split; [lra|]; split; [|right]).
  - intros x (v & im & I & _ & ->). now apply B.
  - exists (hf (-6), hf 3), false. split; [right; now left|]. split; [exact C|exact E3].
  - intros x (i & v & im & N & _ & _ & ->). apply B. eapply nth_error_In; eauto.
  - exists 1%nat, (hf (-6), hf 3), false. split; [reflexivity|]. split; [reflexivity|]. split; [exact C|exact E3].
Qed.
