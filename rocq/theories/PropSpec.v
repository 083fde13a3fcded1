(** Property theorems C30, continued: which specification records are accepted.  Statements only. *)
From Coq Require Import String.
From Verif Require Import Base SpecRecord SpecExact.
Local Open Scope string_scope.
Local Open Scope N_scope.

(** A record is accepted exactly when it says settings, and then as these; or when it has no
    dataBitCount, and then nothing is changed.  All others are refused with an exception. *)
Theorem C30_accepted : forall s0 r s, setFromSpec s0 r = Ok s <-> (field r "dataBitCount" = None /\ s = s0) \/ says r s.
Proof. exact setFromSpec_exact. Qed.
Print Assumptions C30_accepted.

Theorem C30_refused : forall s0 r, setFromSpec s0 r <> UB.
Proof. exact setFromSpec_defined. Qed.
Print Assumptions C30_refused.

(** without studentTNu, in another order, and with a field that is not known *)
Example C30_accepted_example : let s0 := Settings 0 0 Gaussian kAF 3 0 in
  let r := [("normalization", VString "Row"); ("more", VUInt 1); ("weightBitCount", VUInt 12); ("distributionTruncation", VDouble 7); ("distribution", VString "StudentT"); ("dataBitCount", VUInt 8)] in
  says r (Settings 8 12 StudentsT kRow 0 7) /\
  setFromSpec s0 r = Ok (Settings 8 12 StudentsT kRow 0 7) /\
  setFromSpec s0 [("weightBitCount", VUInt 12)] = Ok s0 /\
  setFromSpec s0 (("distribution", VString "uniform") :: r) = Throw /\
  setFromSpec s0 (("weightBitCount", VUInt 0) :: r) = Throw.
Proof.
  split; [|now vm_compute]. constructor; cbn; try discriminate; auto; eexists; (split; [reflexivity|]); auto.
Qed.
