(** AF normalization: errors of the scaling.  Proof file. *)
From Coq Require Import Reals Lra Psatz.
From Flocq Require Import Core Relative.
From Verif Require Import Base BaseLemmas Floats FloatLemmas WeightProofs WeightMoreProofs TimeBlockBuffer DictSpec StochasticEncoder EncSpec StochasticEncoderProofs
  TimeBlockEncoders TbeSpec TbeLoops TbeRowRf TbeReal TbeErr TbeRowRfProofs TbeMore AfForm AfFit AfSpec AfCode.
Local Open Scope R_scope.

(** ** Rounding to single precision *)
Definition v32 : R := / 16777215.
Lemma v32_ok : 0 < v32 <= / 2.
Proof. unfold v32. lra. Qed.

Lemma T_v k t : T v64 k t -> T v32 k t.
Proof.
  intros [A B]. assert (V : v64 <= v32) by (unfold v64, v32; cbn; lra). pose proof v32_ok as V32. pose proof v64_ok as V64.
  assert (C : (1 - v32) ^ k <= (1 - v64) ^ k) by (apply pow_incr; lra). pose proof (pow_v v32 v32_ok k). split; [lra|].
  eapply Rle_trans; [exact B|]. apply Rinv_le; lra.
Qed.

Lemma T_half k t : (k <= 60)%nat -> T v32 k t -> / 2 <= t <= 2.
Proof.
  intros Hk H. apply (T_weaken v32 v32_ok k 60 t Hk) in H. pose proof (T_near v32 v32_ok 60 t) as N.
  replace (INR 60) with 60 in N by (cbn; lra). unfold v32 in N. specialize (N ltac:(lra) H). apply Rabs_le_inv in N. lra.
Qed.

Notation good := usable.

Lemma to32_value (z : f64) : is_finite (to32 z) = true -> is_finite z = true /\ B2R (to32 z) = rn32 (B2R z).
Proof.
  intros F. pose proof (to32_finite_inv z F) as Fz. split; trivial. destruct (conv_ok (p' := 24) (e' := 128) z Fz) as (_ & H).
  change (conv z) with (to32 z) in H. rewrite K_finite in H by trivial. unfold RN in H. pose proof (B2R_bounds (to32 z)) as Bd.
  revert H. unfold Rmax, Rmin. destruct Rle_dec; destruct Rle_dec; intros; lra.
Qed.

Lemma to32_rel (z : f64) : is_finite (to32 z) = true -> bpow radix2 (-126) <= B2R (to32 z) -> 
  bpow radix2 (-127) <= B2R z <= bpow radix2 128 /\ exists t, T v32 1 t /\ B2R (to32 z) = B2R z * t.
Proof.
  intros F G. destruct (to32_value z F) as (Fz & E).
  assert (P126 : bpow radix2 (-126) = 2 * bpow radix2 (-127)) by (change (-126)%Z with (1 + -127)%Z; rewrite bpow_plus; cbn; lra).
  pose proof (bpow_gt_0 radix2 (-127)) as P127.
  assert (Hlo : bpow radix2 (-127) <= B2R z).
  { destruct (Rle_or_lt (bpow radix2 (-127)) (B2R z)) as [H|H]; trivial. exfalso. apply Rlt_le in H. apply (rne_le (p := 24) (e := 128)) in H.
    rewrite rne_bpow in H by lia. lra. }
  assert (Hhi : B2R z <= bpow radix2 128).
  { destruct (Rle_or_lt (B2R z) (bpow radix2 128)) as [H|H]; trivial. exfalso. apply Rlt_le in H. apply (rne_le (p := 24) (e := 128)) in H.
    rewrite rne_bpow in H by lia. pose proof (B2R_bounds (to32 z)). lra. }
  split; [lra|]. rewrite E in *. apply (T_rel v32 v32_ok). rewrite (Rabs_pos_eq (B2R z)) by lra.
  destruct (Rle_or_lt (bpow radix2 (-126)) (B2R z)) as [N|N].
  - pose proof (relative_error_N_FLT radix2 (-149) 24 eq_refl (fun x => negb (Z.even x)) (B2R z)) as Q. 
    rewrite (Rabs_pos_eq (B2R z)) in Q by lra. specialize (Q N).
    change (round radix2 (FLT_exp (-149) 24) ZnearestE (B2R z)) with (rn32 (B2R z)) in Q. eapply Rle_trans; [exact Q|].
    apply Rmult_le_compat_r; [lra|]. unfold v32. cbn. lra.
  - pose proof (error_le_half_ulp radix2 (FLT_exp (-149) 24) (fun x => negb (Z.even x)) (B2R z)) as Q.
    change (round radix2 (FLT_exp (-149) 24) ZnearestE (B2R z)) with (rn32 (B2R z)) in Q.
    rewrite (ulp_FLT_small radix2 (-149) 24 (B2R z)) in Q.
    2: { rewrite Rabs_pos_eq by lra. eapply Rlt_le_trans; [exact N|]. apply bpow_le. lia. }
    assert (P150 : bpow radix2 (-126) = 16777216 * (/ 2 * bpow radix2 (-149))).
    { change (-126)%Z with (23 + -149)%Z. rewrite bpow_plus. change (bpow radix2 23) with 8388608. lra. }
    set (h := / 2 * bpow radix2 (-149)) in *. apply Rabs_le_inv in Q. assert (B2R z >= 16777215 * h) by lra.
    apply Rabs_le. unfold v32. split; lra.
Qed.

Definition dvd (f : f64) (x : f32) : f32 := to32 (div64 (to64 x) f).

Lemma div_finite_inv (x y : f64) : is_finite (div64 x y) = true -> is_finite x = true.
Proof. destruct x, y; try discriminate; reflexivity. Qed.

Lemma pos_round (z r : R) i : rn64 r = z -> bpow radix2 i <= z -> (-900 <= i)%Z -> bpow radix2 (i - 1) <= r.
Proof.
  intros E H Hi. destruct (Rle_or_lt (bpow radix2 (i - 1)) r) as [Q|Q]; trivial. exfalso. apply Rlt_le in Q.
  apply (rne_le (p := 53) (e := 1024)) in Q. rewrite rne_bpow in Q by lia. rewrite E in Q.
  assert (bpow radix2 (i - 1) < bpow radix2 i) by (apply bpow_lt; lia). lra.
Qed.
Lemma pos_round_up (z r : R) i : rn64 r = z -> z <= bpow radix2 i -> (-900 <= i)%Z -> r <= bpow radix2 (i + 1).
Proof.
  intros E H Hi. destruct (Rle_or_lt r (bpow radix2 (i + 1))) as [Q|Q]; trivial. exfalso. apply Rlt_le in Q.
  apply (rne_le (p := 53) (e := 1024)) in Q. rewrite rne_bpow in Q by lia. rewrite E in Q.
  assert (bpow radix2 i < bpow radix2 (i + 1)) by (apply bpow_lt; lia). lra.
Qed.

Lemma dvd_good x f : is_finite f = true -> 1 <= B2R f -> good (dvd f x) ->
  good x /\ exists t, T v32 2 t /\ B2R (dvd f x) = B2R x / B2R f * t.
Proof.
  intros Ff F1 (Fd & Gd). unfold dvd in *. destruct (to32_rel _ Fd Gd) as ((Zl & Zu) & t & Ht & E). destruct (to32_value _ Fd) as (Fz & Ez).
  set (z := div64 (to64 x) f) in *. assert (Fx' := div_finite_inv _ _ Fz). assert (Fx : is_finite x = true) by now rewrite <- to64_finite.
  destruct (to64_val x Fx) as (_ & Ex).
  assert (O : op_ok z (B2R x / B2R f)) by (rewrite <- Ex; apply div_ok; trivial; lra).
  pose proof (op_value z _ O Fz) as Vz.
  pose proof (pos_round _ _ (-127) (eq_sym Vz) Zl ltac:(lia)) as Hl. pose proof (pos_round_up _ _ 128 (eq_sym Vz) Zu ltac:(lia)) as Hu.
  pose proof (bpow_gt_0 radix2 (-127 - 1)) as P128. assert (Hpos : 0 < B2R x / B2R f) by lra.
  assert (Hx : B2R x / B2R f <= B2R x).
  { assert (Q : B2R x = B2R x / B2R f * B2R f) by (field; lra). rewrite Q at 2. rewrite <- (Rmult_1_r (B2R x / B2R f)) at 1. apply Rmult_le_compat_l; lra. }
  split.
  - split; trivial. eapply Rle_trans; [exact Gd|]. rewrite Ez, Vz. rewrite <- (rne_id (p := 24) (e := 128) x) at 2. apply rne_le.
    apply Rle_trans with (rn64 (B2R x)); [now apply rne_le|]. rewrite <- Ex, rne_id. lra.
  - destruct (op_mag z (B2R x / B2R f) (-128) 129 O) as (_ & s & Hs & Es); [rewrite Rabs_pos_eq by lra; split; trivial|lia|lia|].
    exists (s * t). split; [|rewrite E, Es; ring]. apply (T_mult v32 v32_ok 1 1); trivial. now apply T_v.
Qed.

(** ** One multiplication of the sample, one division of the factor *)
Definition related (k : nat) (y c P X : R) : Prop := exists t, T v32 k t /\ y * c * P = X * t.

Lemma related_range k y c P X i j : (k <= 60)%nat -> related k y c P X -> X <> 0 -> bpow radix2 (-149) <= Rabs X <= bpow radix2 128 ->
  bpow radix2 i <= c * P <= bpow radix2 j -> bpow radix2 (-150 - j) <= Rabs y <= bpow radix2 (129 - i).
Proof.
  intros Hk (t & Ht & E) N [X1 X2] [C1 C2]. apply T_half in Ht; trivial. pose proof (bpow_gt_0 radix2 i) as Pi. pose proof (bpow_gt_0 radix2 j) as Pj.
  assert (Ey : Rabs y = Rabs X * t / (c * P)).
  { replace y with (X * t / (c * P)); [|rewrite <- E; field; split; intros ->; [rewrite Rmult_0_r in C1|rewrite Rmult_0_l in C1]; lra].
    unfold Rdiv. rewrite Rabs_mult, (Rabs_mult X t), Rabs_inv, (Rabs_pos_eq t), (Rabs_pos_eq (c * P)) by lra. reflexivity. }
  rewrite Ey. unfold Z.sub. rewrite !bpow_plus, !bpow_opp. change (-150)%Z with (-1 + -149)%Z. change 129%Z with (1 + 128)%Z. rewrite !bpow_plus.
  change (bpow radix2 (-1)) with (/ 2). change (bpow radix2 1) with 2.
  assert (I1 : / bpow radix2 j <= / (c * P)) by (apply Rinv_le; lra). assert (I2 : / (c * P) <= / bpow radix2 i) by (apply Rinv_le; lra).
  assert (0 < / bpow radix2 j) by now apply Rinv_0_lt_compat.
  pose proof (bpow_gt_0 radix2 (-149)). unfold Rdiv. split; apply Rmult_le_compat; try lra; nra.
Qed.

Lemma hit k (y f : f64) (c : f32) P X : is_finite y = true -> is_finite f = true -> 1 <= B2R f -> good (dvd f c) ->
  bpow radix2 (-252) <= P <= bpow radix2 256 -> (X <> 0 -> bpow radix2 (-149) <= Rabs X <= bpow radix2 128) -> (k <= 50)%nat ->
  related k (B2R y) (B2R c) P X -> is_finite (mul64 y f) = true /\ related (k + 3) (B2R (mul64 y f)) (B2R (dvd f c)) P X.
Proof.
  intros Fy Ff F1 Gd [P1 P2] HX Hk (t & Ht & E). pose proof (dvd_good c f Ff F1 Gd) as ((Fc & Gc) & s & Hs & Ed).
  pose proof (bpow_gt_0 radix2 (-126)). pose proof (bpow_gt_0 radix2 (-252)). destruct Gd as (Fd & Gd).
  destruct (Req_dec X 0) as [->|NX].
  - assert (Y0 : B2R y = 0). { rewrite Rmult_0_l in E. destruct (Rmult_integral _ _ E) as [Q|Q]; [|lra]. destruct (Rmult_integral _ _ Q); lra. }
    destruct (mul_zero y f Fy Ff Y0) as (A & B). split; trivial. exists 1. split; [apply (T_weaken v32 v32_ok 0); [lia|apply T_1]|]. rewrite B. ring.
  - specialize (HX NX).
    assert (R1 : related (k + 2) (B2R y * B2R f) (B2R (dvd f c)) P X).
    { exists (t * s). split; [now apply (T_mult v32 v32_ok)|]. rewrite Ed. rewrite <- (Rmult_assoc X), <- E. field. lra. }
    pose proof (related_range (k + 2) _ _ _ _ (-378) 384 ltac:(lia) R1 NX HX) as Rg.
    destruct (op_mag (mul64 y f) (B2R y * B2R f) (-534) 507) as (M & u & Hu & Eu); [now apply mult_ok| |lia|lia|].
    { apply Rg. change (-378)%Z with (-126 + -252)%Z. change 384%Z with (128 + 256)%Z. rewrite !bpow_plus. pose proof (B2R_bounds (dvd f c)). split; apply Rmult_le_compat; lra. }
    split; [apply M|]. destruct R1 as (t1 & Ht1 & E1). exists (t1 * u). split; [|rewrite Eu, <- (Rmult_assoc X), <- E1; ring].
    replace (k + 3)%nat with (k + 2 + 1)%nat by lia. apply (T_mult v32 v32_ok); trivial. now apply T_v.
Qed.

(** ** The changes of the fit *)
Lemma good_prod x y : good x -> good y -> bpow radix2 (-252) <= B2R x * B2R y <= bpow radix2 256.
Proof.
  intros (_ & Gx) (_ & Gy). change (-252)%Z with (-126 + -126)%Z. change 256%Z with (128 + 128)%Z. rewrite !bpow_plus.
  pose proof (B2R_bounds x). pose proof (B2R_bounds y). pose proof (bpow_gt_0 radix2 (-126)). split; apply Rmult_le_compat; lra.
Qed.

Lemma related_ext k y c P X c' P' : c * P = c' * P' -> related k y c P X -> related k y c' P' X.
Proof. intros E (t & Ht & H). exists t. split; trivial. rewrite Rmult_assoc, <- E, <- Rmult_assoc. trivial. Qed.

Lemma part_sc im f k v : part im (sc f k v) = Nat.iter k (fun y => mul64 y f) (part im v).
Proof.
  induction k as [|k IH]; trivial. change (part im (cmul (sc f k v) f) = mul64 (Nat.iter k (fun y => mul64 y f) (part im v)) f). now rewrite part_cmul, IH.
Qed.

Section Ops.
Context (nPol nChan nAnt : nat).
Notation n := (nPol * nChan)%nat.
Context (r : drow cd) (i : nat) (Hi : (i < n)%nat) (H1 : (antenna1 r < nAnt)%nat) (H2 : (antenna2 r < nAnt)%nat).
Let p := (i mod nPol)%nat.
Let s1 := (n + nAnt * p + antenna1 r)%nat.
Let s2 := (n + nAnt * p + antenna2 r)%nat.

Definition slot1 (o : op) (j : nat) (x : f32) : f32 := if (j =? slot nPol nChan nAnt o)%nat then dvd (fac o) x else x.
Definition times (o : op) (y : f64) : f64 := Nat.iter (hits nPol o r i) (fun y => mul64 y (fac o)) y.

Lemma slot_good o j x : is_finite (fac o) = true -> 1 <= B2R (fac o) -> good (slot1 o j x) -> good x.
Proof. intros Ff F1. unfold slot1. destruct (_ =? _)%nat; trivial. intros G. now apply (dvd_good x (fac o) Ff F1). Qed.

Lemma ant_slot q a u : (a < nAnt)%nat -> (u < nAnt)%nat -> (n + nAnt * p + u =? n + nAnt * q + a)%nat = ((p =? q)%nat && (u =? a)%nat)%bool.
Proof.
  intros Ha Hu. destruct (Nat.eqb_spec p q) as [->|Np]; cbn [andb].
  - destruct (Nat.eqb_spec u a) as [->|Nu]; [apply Nat.eqb_refl|]. apply Nat.eqb_neq. lia.
  - apply Nat.eqb_neq. intros E. apply Np. nia.
Qed.

Lemma op_step o (y : f64) (c a1 a2 : f32) X k : valid nPol nChan nAnt o -> is_finite (fac o) = true -> 1 <= B2R (fac o) ->
  good (slot1 o i c) -> good (slot1 o s1 a1) -> good (slot1 o s2 a2) -> (X <> 0 -> bpow radix2 (-149) <= Rabs X <= bpow radix2 128) ->
  (k + 3 * hits nPol o r i <= 50)%nat -> is_finite y = true -> related k (B2R y) (B2R c) (B2R a1 * B2R a2) X ->
  is_finite (times o y) = true /\ related (k + 3 * hits nPol o r i) (B2R (times o y)) (B2R (slot1 o i c)) (B2R (slot1 o s1 a1) * B2R (slot1 o s2 a2)) X.
Proof.
  intros V Ff F1 Gc Ga Gb HX Hk Fy R. pose proof (slot_good _ _ _ Ff F1 Gc) as Gc0. pose proof (slot_good _ _ _ Ff F1 Ga) as Ga0.
  pose proof (slot_good _ _ _ Ff F1 Gb) as Gb0. unfold times, slot1 in *. destruct o as [j f|q a f]; cbn [slot fac hits valid] in *.
  - assert (S1 : (s1 =? j)%nat = false) by (apply Nat.eqb_neq; unfold s1; lia). assert (S2 : (s2 =? j)%nat = false) by (apply Nat.eqb_neq; unfold s2; lia).
    rewrite S1, S2 in *. destruct (i =? j)%nat; cbn [Nat.iter] in *.
    + apply hit; trivial; [now apply good_prod|lia].
    + split; trivial. now rewrite Nat.add_0_r.
  - destruct V as (Vq & Va). assert (Ei : (i =? n + nAnt * q + a)%nat = false) by (apply Nat.eqb_neq; lia).
    assert (E1 := ant_slot q a (antenna1 r) Va H1). assert (E2 := ant_slot q a (antenna2 r) Va H2). fold s1 in E1. fold s2 in E2.
    fold p in Hk |- *. rewrite Ei, E1, E2 in *. destruct (p =? q)%nat; cbn [andb] in *; [|cbn [Nat.iter] in *; split; trivial; now rewrite Nat.add_0_r].
    unfold uses in *. destruct (antenna1 r =? a)%nat, (antenna2 r =? a)%nat; cbn [Nat.add Nat.iter] in *.
    + destruct (hit k y f a1 (B2R c * B2R a2) X) as (A1 & A2); trivial; [now apply good_prod|lia|now apply (related_ext k _ (B2R c) (B2R a1 * B2R a2)); [ring|]|].
      destruct (hit (k + 3) (mul64 y f) f a2 (B2R c * B2R (dvd f a1)) X) as (A3 & A4); trivial; [now apply good_prod|lia| |].
      * now apply (related_ext _ _ (B2R (dvd f a1)) (B2R c * B2R a2)); [ring|].
      * split; trivial. replace (k + 3 * 2)%nat with (k + 3 + 3)%nat by lia. now apply (related_ext _ _ (B2R (dvd f a2)) (B2R c * B2R (dvd f a1))); [ring|].
    + destruct (hit k y f a1 (B2R c * B2R a2) X) as (A1 & A2); trivial; [now apply good_prod|lia|now apply (related_ext k _ (B2R c) (B2R a1 * B2R a2)); [ring|]|].
      split; trivial. now apply (related_ext _ _ (B2R (dvd f a1)) (B2R c * B2R a2)); [ring|].
    + destruct (hit k y f a2 (B2R c * B2R a1) X) as (A1 & A2); trivial; [now apply good_prod|lia|now apply (related_ext k _ (B2R c) (B2R a1 * B2R a2)); [ring|]|].
      split; trivial. now apply (related_ext _ _ (B2R (dvd f a2)) (B2R c * B2R a1)); [ring|].
    + split; trivial. now rewrite Nat.add_0_r.
Qed.

Fixpoint total (ops : list op) : nat := match ops with [] => 0 | o :: ops => hits nPol o r i + total ops end.

Lemma total_hitting m ops : (forall o, hits nPol o r i <= m)%nat -> (total ops <= m * length (hitting nPol r i ops))%nat.
Proof.
  intros Hm. induction ops as [|o ops IH]; cbn; [lia|]. specialize (Hm o). unfold hitting in *. cbn [filter].
  destruct (Nat.eqb_spec (hits nPol o r i) 0); cbn [negb length]; nia.
Qed.

Lemma ops_good L ops j : forall data x, steps nPol nChan nAnt L ops data -> good (slot_ops nPol nChan nAnt ops j x) -> good x.
Proof.
  induction ops as [|o ops IH]; intros data x St G; trivial. destruct St as (V & (Ff & Ho) & St). pose proof (ok_ge _ _ _ _ _ (conj Ff Ho)) as F1.
  apply (IH (app_data nPol o data) (slot1 o j x)) in St; [now apply slot_good in St|exact G].
Qed.

Lemma ops_step L im ops : forall data v (c a1 a2 : f32) X k, steps nPol nChan nAnt L ops data ->
  good (slot_ops nPol nChan nAnt ops i c) -> good (slot_ops nPol nChan nAnt ops s1 a1) -> good (slot_ops nPol nChan nAnt ops s2 a2) ->
  (X <> 0 -> bpow radix2 (-149) <= Rabs X <= bpow radix2 128) -> (k + 3 * total ops <= 50)%nat ->
  is_finite (part im v) = true -> related k (B2R (part im v)) (B2R c) (B2R a1 * B2R a2) X ->
  let y := part im (sample_ops nPol ops r i v) in
  is_finite y = true /\ related (k + 3 * total ops) (B2R y) (B2R (slot_ops nPol nChan nAnt ops i c))
    (B2R (slot_ops nPol nChan nAnt ops s1 a1) * B2R (slot_ops nPol nChan nAnt ops s2 a2)) X.
Proof.
  induction ops as [|o ops IH]; intros data v c a1 a2 X k St Gc Ga Gb HX Hk Fy R; cbn zeta.
  - cbn. split; trivial. now rewrite Nat.add_0_r.
  - destruct St as (V & (Ff & Ho) & St). pose proof (ok_ge _ _ _ _ _ (conj Ff Ho)) as F1. cbn [total] in *.
    pose proof (ops_good L ops i _ (slot1 o i c) St Gc) as Gc1. pose proof (ops_good L ops s1 _ (slot1 o s1 a1) St Ga) as Ga1. pose proof (ops_good L ops s2 _ (slot1 o s2 a2) St Gb) as Gb1.
    destruct (op_step o (part im v) c a1 a2 X k V Ff F1 Gc1 Ga1 Gb1 HX ltac:(lia) Fy R) as (A & B).
    unfold times in A, B. rewrite <- part_sc in A, B.
    replace (k + 3 * (hits nPol o r i + total ops))%nat with (k + 3 * hits nPol o r i + 3 * total ops)%nat by lia.
    apply (IH (app_data nPol o data) (sc (fac o) (hits nPol o r i) v) (slot1 o i c) (slot1 o s1 a1) (slot1 o s2 a2) X (k + 3 * hits nPol o r i)%nat); trivial. lia.
Qed.
End Ops.

(** ** The first normalization *)
Lemma base (x R m1 m2 F : f64) : is_finite x = true -> (B2R x <> 0 -> bpow radix2 (-149) <= Rabs (B2R x) <= bpow radix2 128) ->
  is_finite R = true -> bpow radix2 (-116) <= B2R R ->
  let mul := mul64 m1 m2 in let N := if is0 mul then zero64 else div64 one64 mul in
  let c := to32 (div64 (to64 (to32 R)) F) in let a1 := to32 m1 in let a2 := to32 m2 in
  good c -> good a1 -> good a2 ->
  let y := mul64 (mul64 (div64 x R) N) F in
  is_finite F = true /\ bpow radix2 (-256) <= B2R F <= bpow radix2 256 /\
  is_finite y = true /\ related 10 (B2R y) (B2R c) (B2R a1 * B2R a2) (B2R x).
Proof.
  intros Fx Rx FR GR mul N c a1 a2 (Fc & Gc) (Fa1 & Ga1) (Fa2 & Ga2) y.
  (* the channel factor *)
  destruct (to32_rel _ Fc Gc) as ((Zl & Zu) & tc & Htc & Ec). destruct (to32_value _ Fc) as (Fz & _). set (z := div64 (to64 (to32 R)) F) in *.
  assert (Fc0 : is_finite (to32 R) = true) by (rewrite <- to64_finite; exact (div_finite_inv _ _ Fz)).
  destruct (to64_val _ Fc0) as (_ & Ec0).
  assert (Gc0 : bpow radix2 (-116) <= B2R (to32 R)).
  { destruct (to32_value _ Fc0) as (_ & Q). rewrite Q. rewrite <- (rne_bpow (p := 24) (e := 128) (-116)) by lia. now apply rne_le. }
  assert (Gc1 : bpow radix2 (-126) <= B2R (to32 R)) by (eapply Rle_trans; [|exact Gc0]; apply bpow_le; lia).
  destruct (to32_rel _ Fc0 Gc1) as ((_ & Ru) & t0 & Ht0 & E0).
  pose proof (bpow_gt_0 radix2 (-116)) as P116. pose proof (bpow_gt_0 radix2 (-127)) as P127.
  assert (FF : is_finite F = true /\ B2R F <> 0).
  { unfold z in Fz, Zl. revert Fz Zl. generalize (to64 (to32 R)). intros w. destruct F as [s|s| |s m e Hb]; intros Fz Zl; cbn [is_finite].
    - exfalso. destruct w; discriminate.
    - exfalso. destruct w; try discriminate; cbn in Zl; lra.
    - exfalso. destruct w; discriminate.
    - split; trivial. intros Q. apply (eq_0_F2R radix2 (cond_Zopp s (Z.pos m)) e) in Q. now destruct s. }
  destruct FF as (FF & NF).
  assert (Oz : op_ok z (B2R (to32 R) / B2R F)) by (rewrite <- Ec0; apply div_ok; trivial; now rewrite to64_finite).
  pose proof (op_value z _ Oz Fz) as Vz.
  pose proof (pos_round _ _ (-127) (eq_sym Vz) Zl ltac:(lia)) as Hl. pose proof (pos_round_up _ _ 128 (eq_sym Vz) Zu ltac:(lia)) as Hu.
  pose proof (bpow_gt_0 radix2 (-127 - 1)) as P128.
  destruct (op_mag z _ (-128) 129 Oz) as (_ & tz & Htz & Ez); [rewrite Rabs_pos_eq by lra; split; trivial|lia|lia|].
  assert (PF : 0 < B2R F).
  { destruct (Rle_or_lt (B2R F) 0) as [Q|Q]; trivial. exfalso. assert (Q' : B2R F < 0) by lra. apply Rinv_lt_0_compat in Q'. unfold Rdiv in Hl.
    assert (B2R (to32 R) * / B2R F <= 0) by nra. lra. }
  assert (EF : B2R F = B2R (to32 R) * / (B2R (to32 R) / B2R F)) by (field; lra).
  assert (RF : bpow radix2 (-256) <= B2R F <= bpow radix2 256).
  { assert (I1 : / bpow radix2 129 <= / (B2R (to32 R) / B2R F)) by (apply Rinv_le; [lra|exact Hu]).
    assert (I2 : / (B2R (to32 R) / B2R F) <= / bpow radix2 (-128)) by (apply Rinv_le; [apply bpow_gt_0|exact Hl]).
    rewrite <- bpow_opp in I1, I2. change (- (-128))%Z with 128%Z in I2. change (- (129))%Z with (-129)%Z in I1. pose proof (B2R_bounds (to32 R)) as Bc.
    rewrite EF. split.
    - apply Rle_trans with (bpow radix2 (-116) * bpow radix2 (-129)); [rewrite <- bpow_plus; apply bpow_le; lia|]. apply Rmult_le_compat; try lra. apply bpow_ge_0.
    - change 256%Z with (128 + 128)%Z. rewrite bpow_plus. apply Rmult_le_compat; try lra. apply Rlt_le, Rinv_0_lt_compat. lra. }
  split; trivial. split; trivial.
  assert (MF : TbeReal.mag (-256) 256 F) by (split; trivial; rewrite Rabs_pos_eq by lra; trivial).
  (* antenna factors *)
  destruct (to32_rel _ Fa1 Ga1) as (R1 & t1 & Ht1 & E1). destruct (to32_value _ Fa1) as (Fm1 & _).
  destruct (to32_rel _ Fa2 Ga2) as (R2 & t2 & Ht2 & E2). destruct (to32_value _ Fa2) as (Fm2 & _).
  assert (M1 : TbeReal.mag (-127) 128 m1) by (split; trivial; rewrite Rabs_pos_eq by lra; trivial).
  assert (M2 : TbeReal.mag (-127) 128 m2) by (split; trivial; rewrite Rabs_pos_eq by lra; trivial).
  destruct (mul_mag _ _ _ _ m1 m2 M1 M2) as (Mm & tm & Htm & Em); [lia|lia|]. fold mul in Mm, Em.
  assert (EN : N = div64 one64 mul).
  { unfold N. destruct (is0 mul) eqn:Z; trivial. exfalso. apply (is0_val mul (proj1 Mm)) in Z. exact (mag_nz _ _ _ Mm Z). }
  destruct (div_mag _ _ _ _ one64 mul one64_mag Mm) as (MN & tn & Htn & En); [lia|lia|]. rewrite <- EN in MN, En. rewrite (proj2 one64_val) in En.
  pose proof (T_pos v64 v64_ok _ _ Htm) as Ptm.
  destruct (Req_dec (B2R x) 0) as [X0|NX].
  - (* zero *)
    assert (D : is_finite (div64 x R) = true /\ B2R (div64 x R) = 0).
    { destruct (op_ok_finite (div64 x R) (B2R x / B2R R)) as (A & B).
      - apply div_ok; trivial. lra.
      - rewrite X0. unfold Rdiv. rewrite Rmult_0_l, rne_0, Rabs_R0. apply bpow_gt_0.
      - split; trivial. rewrite B, X0. unfold Rdiv. now rewrite Rmult_0_l, rne_0. }
    destruct (mul_zero (div64 x R) N (proj1 D) (proj1 MN) (proj2 D)) as (A & B). destruct (mul_zero _ F A FF B) as (A' & B').
    split; trivial. exists 1. split; [apply (T_weaken v32 v32_ok 0); [lia|apply T_1]|]. unfold y. rewrite B', X0. ring.
  - specialize (Rx NX).
    assert (Mx : TbeReal.mag (-149) 128 x) by (split; trivial).
    assert (MR : TbeReal.mag (-116) 128 R) by (split; trivial; rewrite Rabs_pos_eq by lra; lra).
    destruct (div_mag _ _ _ _ x R Mx MR) as (My0 & u0 & Hu0 & Ey0); [lia|lia|].
    destruct (mul_mag _ _ _ _ _ N My0 MN) as (My1 & u1 & Hu1 & Ey1); [lia|lia|].
    destruct (mul_mag _ _ _ _ _ F My1 MF) as (My2 & u2 & Hu2 & Ey2); [lia|lia|]. fold y in My2, Ey2.
    split; [apply My2|].
    exists (u0 * u1 * u2 * (t0 * tz * tc) * (t1 * t2 * (/ tm * tn))). split.
    + change 10%nat with (3 + 3 + (1 + 1 + (1 + 1)))%nat. pose proof v32_ok as V. pose proof (T_inv v64 v64_ok _ _ Htm) as Htm'.
      repeat apply (T_mult v32 V); try apply (T_mult v32 V 2 1); try apply (T_mult v32 V 1 1); trivial; now apply T_v.
    + unfold c, a1, a2. rewrite Ey2, Ey1, Ey0, En, Em, Ec, Ez, E0, E1, E2. field.
      pose proof (bpow_gt_0 radix2 (-126)). repeat split; try lra; intros Q.
Qed.
