(** Property theorems C78: [AFTimeBlockEncoder::Normalize].  Statements only. *)
From Verif Require Import Base Floats FloatLemmas TimeBlockBuffer StochasticEncoder TimeBlockEncoders TbeSpec TbeExamples AfSpec AfExamples AfNormalize AfNormalizeProofs.

(** For any data, with or without fitting, the call ends and the buffer is what it was. *)
Theorem C78_unchanged : forall e nPol nChan nAnt fit b, dec e <> [] -> rows_of (nPol * nChan) b -> antennas_below nAnt b ->
  Normalize e nPol nChan nAnt fit b = Ok b.
Proof. intros e nPol nChan nAnt. exact (Normalize_unchanged nPol nChan nAnt e). Qed.
Print Assumptions C78_unchanged.

(** a row is between two antennas, and a part of one of its values is above [x] *)
Definition cross_above {A} (up : A -> f64) (x : f64) (data : list (drow (A * A))) : Prop :=
  exists r v, In r data /\ antenna1 r <> antenna2 r /\ In v (visibilities r) /\ (Bltb x (up (fst v)) = true \/ Bltb x (up (snd v)) = true).

Definition cross_aboveb {A} (up : A -> f64) (x : f64) (data : list (drow (A * A))) : bool :=
  existsb (fun r => negb (antenna1 r =? antenna2 r)%nat && existsb (fun v => Bltb x (up (fst v)) || Bltb x (up (snd v))) (visibilities r)) data.
Lemma cross_aboveb_iff {A} (up : A -> f64) x data : cross_aboveb up x data = true <-> cross_above up x data.
Proof.
  unfold cross_aboveb, cross_above. rewrite existsb_exists. split.
  - intros (r & I & H). apply andb_prop in H as (N & H). apply existsb_exists in H as (v & V & H). apply Bool.orb_true_iff in H.
    exists r, v. repeat (split; trivial). apply Bool.negb_true_iff in N. now apply Nat.eqb_neq.
  - intros (r & v & I & N & V & H). exists r. split; trivial. apply andb_true_intro. split; [apply Bool.negb_true_iff; now apply Nat.eqb_neq|].
    apply existsb_exists. exists v. split; trivial. now apply Bool.orb_true_iff.
Qed.
Definition result_above (r : res (list (drow cd))) (x : f64) : option bool := match r with Ok d => Some (cross_aboveb (fun y => y) x d) | _ => None end.
Lemma result_above_ok r x b : result_above r x = Some b -> exists d, r = Ok d /\ (if b then cross_above (fun y => y) x d else ~ cross_above (fun y => y) x d).
Proof.
  destruct r as [d| |]; cbn; [|discriminate|discriminate]. intros [= E]. exists d. split; trivial. destruct b; rewrite <- cross_aboveb_iff; [trivial|].
  now rewrite E.
Qed.

(** So it does not bring the values into the range of the encoder. *)
Theorem C78_normalizes_refuted : exists e hi nPol nChan nAnt b b', MaxQuantity e = Ok hi /\
  rows_of (nPol * nChan) b /\ antennas_below nAnt b /\ Normalize e nPol nChan nAnt true b = Ok b' /\ cross_above to64 (to64 hi) b'.
Proof.
  exists ex3, two, 1%nat, 2%nat, 3%nat, ablk, ablk. split; [reflexivity|]. split; [apply ablk_rows|]. split; [apply ablk_rows|].
  split; [apply C78_unchanged; [discriminate|apply ablk_rows|apply ablk_rows]|].
  eexists. exists (hf 20, hf (-10)). split; [right; left; reflexivity|]. split; [discriminate|]. split; [left; reflexivity|]. left. now vm_compute.
Qed.
Print Assumptions C78_normalizes_refuted.

(** one large value among small ones *)
Definition peak : tbb cf := DRow 0 1 [(hf 100, hf 0)] :: repeat (DRow 0 1 [(hf 2, hf 0)]) 12.
Lemma peak_rows : rows_of (1 * 1) peak /\ antennas_below 2 peak.
Proof. split; rows_tac. Qed.

Definition firsts (r : res (list (drow cd))) : option (list (list (shown * shown))) :=
  match r with Ok l => Some (map (fun r => map (fun v => (show (to32 (fst v)), show (to32 (snd v)))) (visibilities r)) (firstn 2 l)) | _ => None end.

(** Neither are the values computed inside the function: the factor that is to fit them to the
    range is inverted, so values above the range get further away from it.  Here 5.09 becomes
    12.94, while the range ends at 2. *)
Theorem C78_fit_refuted : exists e hi nPol nChan nAnt b before after, MaxQuantity e = Ok hi /\
  rows_of (nPol * nChan) b /\ antennas_below nAnt b /\
  normalized e nPol nChan nAnt false b = Ok before /\ normalized e nPol nChan nAnt true b = Ok after /\
  cross_above (fun x => x) (mul64 (of64 6) (to64 hi)) after /\ ~ cross_above (fun x => x) (mul64 (of64 3) (to64 hi)) before.
Proof.
  destruct (result_above_ok (normalized ex3 1 1 2 false peak) (mul64 (of64 3) (to64 two)) false) as (d & E & D); [now vm_compute|].
  destruct (result_above_ok (normalized ex3 1 1 2 true peak) (mul64 (of64 6) (to64 two)) true) as (d' & E' & D'); [now vm_compute|].
  exists ex3, two, 1%nat, 1%nat, 2%nat, peak, d, d'. split; [reflexivity|]. split; [apply peak_rows|]. split; [apply peak_rows|]. now repeat split.
Qed.
Print Assumptions C78_fit_refuted.

(** A channel without signal is divided by zero, also when all values are finite. *)
Definition has_nan (data : list (drow cd)) : bool := existsb (fun r => existsb (fun v => is_nan (fst v) && is_nan (snd v)) (visibilities r)) data.
Lemma result_nan r : match r with Ok d => has_nan d | _ => false end = true -> exists d, r = Ok d /\ has_nan d = true.
Proof. destruct r as [d| |]; [|discriminate|discriminate]. intros H. exists d. exact (conj eq_refl H). Qed.
Lemma zero_chan_rows : rows_of (1 * 2) zero_chan /\ antennas_below 2 zero_chan /\
  forall r v, In r zero_chan -> In v (visibilities r) -> is_finite (fst v) = true /\ is_finite (snd v) = true.
Proof.
  split; [rows_tac|]. split; [rows_tac|]. intros r v [<-|[]] I. cbn [visibilities] in I. destruct I as [<-|[<-|[]]]; split; reflexivity.
Qed.
Theorem C78_silent_refuted : exists e nPol nChan nAnt b after, (rows_of (nPol * nChan) b /\ antennas_below nAnt b /\
  forall r v, In r b -> In v (visibilities r) -> is_finite (fst v) = true /\ is_finite (snd v) = true) /\
  normalized e nPol nChan nAnt true b = Ok after /\ has_nan after = true.
Proof.
  destruct (result_nan (normalized ex3 1 2 2 true zero_chan)) as (d & H); [vm_compute; reflexivity|].
  exact (ex_intro _ ex3 (ex_intro _ 1%nat (ex_intro _ 2%nat (ex_intro _ 2%nat (ex_intro _ zero_chan (ex_intro _ d (conj zero_chan_rows H))))))).
Qed.
Print Assumptions C78_silent_refuted.

(** the hypotheses of C78_unchanged hold for these blocks; a channel without signal is divided
    by zero, inside the function only *)
Example C78_example : dec ex3 <> [] /\ rows_of (1 * 2) azero /\ antennas_below 3 azero /\
  Normalize ex3 1 2 3 true azero = Ok azero /\
  firsts (normalized ex3 1 2 3 true azero) = Some [[(Num 647, Num 1295); (NaN, NaN)]; [(Num 841, Num (-1178)); (NaN, NaN)]] /\
  firsts (normalized ex3 1 1 2 false peak) = Some [[(Num 5208, Num 0)]; [(Num 104, Num 0)]] /\
  firsts (normalized ex3 1 1 2 true peak) = Some [[(Num 13248, Num 0)]; [(Num 264, Num 0)]].
Proof.
  split; [discriminate|]. split; [apply azero_rows|]. split; [apply azero_rows|].
  split; [apply C78_unchanged; [discriminate|apply azero_rows|apply azero_rows]|].
  split; [now vm_compute|]. split; now vm_compute.
Qed.
