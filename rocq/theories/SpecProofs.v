(** Lemmas about the specification record. *)
From Coq Require Import String.
From Verif Require Import Base SpecRecord.
Local Open Scope string_scope.
Local Open Scope N_scope.

Lemma spec_roundtrip s0 s : 0 < s_dataBits s < 2 ^ 32 -> 0 < s_weightBits s < 2 ^ 32 -> s_dist s <> StudentsT ->
  setFromSpec s0 (dataManagerSpec s) = Ok s.
Proof.
  intros (D0 & D1) (W0 & W1) H. destruct s as [d w di no nu tr]. cbn [s_dataBits s_weightBits s_dist s_norm s_nu s_truncation] in *.
  unfold setFromSpec, dataManagerSpec, asUInt, asString, asDouble. cbn [s_dataBits s_weightBits s_dist s_norm s_nu s_truncation].
  destruct di; try congruence; destruct no;
    cbn [field String.eqb Ascii.eqb Bool.eqb bind];
    rewrite !N.mod_small by trivial;
    rewrite (proj2 (N.eqb_neq d 0)), (proj2 (N.eqb_neq w 0)) by lia; reflexivity.
Qed.

Lemma spec_studentst s0 s : s_dist s = StudentsT -> setFromSpec s0 (dataManagerSpec s) = Throw.
Proof.
  intros H. destruct s as [d w di no nu tr]. cbn [s_dist] in H. subst di.
  unfold setFromSpec, dataManagerSpec, asUInt, asString, asDouble. cbn [s_dataBits s_weightBits s_dist s_norm s_nu s_truncation].
  cbn [field String.eqb Ascii.eqb Bool.eqb bind]. destruct (_ =? 0); trivial. cbn [bind]. destruct (_ =? 0); reflexivity.
Qed.

(** a record that is accepted gives usable bit counts *)
Lemma spec_bits s0 r s : setFromSpec s0 r = Ok s -> field r "dataBitCount" <> None -> s_dataBits s <> 0 /\ s_weightBits s <> 0.
Proof.
  unfold setFromSpec. destruct (field r "dataBitCount") eqn:E; [|easy]. intros H _.
  destruct (asUInt r "dataBitCount") as [d| |]; cbn [bind] in H; try discriminate. destruct (N.eqb_spec d 0); [discriminate|].
  destruct (asUInt r "weightBitCount") as [w| |]; cbn [bind] in H; try discriminate. destruct (N.eqb_spec w 0); [discriminate|].
  destruct (asString r "distribution") as [ds| |]; cbn [bind] in H; try discriminate.
  match type of H with bind ?x _ = _ => destruct x end; cbn [bind] in H; try discriminate.
  destruct (asString r "normalization") as [ns| |]; cbn [bind] in H; try discriminate.
  match type of H with bind ?x _ = _ => destruct x end; cbn [bind] in H; try discriminate.
  match type of H with bind ?x _ = _ => destruct x end; cbn [bind] in H; try discriminate.
  match type of H with bind ?x _ = _ => destruct x end; cbn [bind] in H; try discriminate.
  injection H as <-. now split.
Qed.
