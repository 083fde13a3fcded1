(** A library, settings and a measurement set that satisfy the hypotheses of C66 and C67. *)
From Coq Require Import Reals Lra Lia String.
From Flocq Require Import Core.
From Verif Require Import Base Floats FloatLemmas TimeBlockBuffer BytePacker File StMan StManSpec.
From Verif Require Import BitStream StochasticEncoder EncoderTables NormalSpec NormalExists TableSpec TableMore TimeBlockEncoders TbeSpec Weights WeightSpec Block BlockSpec Column ColumnSpec
  StoredColumn System SystemSpec Production ProductionSpec ProductionProofs ProductionTool.
From Verif Require Dscompress DsSpec DsExamples.
Local Open Scope N_scope.

(** an accurate library *)
Definition good_gsl : gsl := Gsl (erf_of Phi) (fun p _ => cut (cauchy_quantile (B2R p)) 35) (cdf_of Phi) (fun p _ => cut (normal_quantile Phi Phi_normal (B2R p)) 35).

(** the defaults of dscompress, and the other distributions and normalizations *)
Definition ex_options d n := Dscompress.Options d n false 8 12 (dy 5 (-1)) false ["DATA"%string; "WEIGHT_SPECTRUM"%string].

Lemma good_options d n : options_ok Phi cauchy cauchy_density good_gsl (ex_options d n).
Proof.
  split; [cbn; tauto|]. split; [cbn; tauto|]. split; [exact Phi_normal|]. cbn [Dscompress.o_distribution Dscompress.o_truncation ex_options]. destruct d.
  - exact (erf_of_accurate Phi Phi_normal).
  - exact I.
  - split; [exact cauchy_peaked|]. exact (inv_of_accurate cauchy cauchy_density cauchy_quantile cauchy_peaked cauchy_quantile_ok).
  - cbv zeta. destruct (dy_exact (p := 53) (e := 1024) 5 (-1) ltac:(lia) ltac:(lia) ltac:(lia)) as (Ft & Et).
    split; [exact Ft|]. split; [rewrite Et; cbn; lra|].
    destruct (cdf_of_near Phi Phi_normal (Bopp (dy 5 (-1))) (of64 1)) as (H1 & H2). split; [exact H1|]. split; [rewrite <- B2R_Bopp; exact H2|].
    exact (inv_of_accurate Phi density (normal_quantile Phi Phi_normal) (normal_peaked Phi Phi_normal) (normal_quantile_ok Phi Phi_normal)).
Qed.

Lemma good_settings d n : settings_ok Phi cauchy cauchy_density good_gsl (tool_settings (ex_options d n)).
Proof. apply options_settings, good_options. Qed.

Definition ex_data : list (list cf) := map (fun k => [(of32 k, of32 1); (of32 2, of32 (- k))]) [1; 2; 3; 4]%Z.
Definition ex_cols : Dscompress.columns := fun c => if String.eqb c "DATA" then Some ex_data else None.
Definition ex_flags : list (list bool) := [[true; false]; [false; false]; [false; false]; [false; true]].
Definition ex_weights : list (list f32) := map (fun k => [of32 k; of32 1]) [1; 2; 3; 4]%Z.

Lemma of32_nonneg k : (0 <= k < 100)%Z -> nonneg (of32 k).
Proof.
  intros H. destruct (dy_exact (p := 24) (e := 128) k 0 ltac:(lia) ltac:(lia) ltac:(lia)) as (F & E). split; [exact F|]. change (of32 k) with (dy k 0 : f32). rewrite E. cbn [bpow]. rewrite Rmult_1_r. apply (IZR_le 0). lia.
Qed.

Lemma ex_compressible d n : compressible (ex_options d n) 1 2 DsExamples.good_rows ex_cols ex_flags ex_weights.
Proof.
  constructor.
  - exact DsExamples.good_ok.
  - exists (DsExamples.row 0 1 DsExamples.t0), [DsExamples.row 0 2 DsExamples.t0; DsExamples.row 0 1 DsExamples.t1; DsExamples.row 0 2 DsExamples.t1], (DsExamples.row 0 1 DsExamples.t1).
    split; [reflexivity|]. split; [right; left; reflexivity|]. intros (A & _). vm_compute in A. discriminate.
  - intros r H. repeat (destruct H as [<-|H]; [cbn; lia|]). destruct H.
  - lia.
  - split; [discriminate|]. split; [|reflexivity]. repeat constructor; cbn; intuition discriminate.
  - intros c dd H. unfold ex_cols in H. destruct (String.eqb c "DATA"); [|discriminate]. now injection H as <-.
  - intros c [<-|[<-|[]]] Hc; [|easy]. exists ex_data. split; [reflexivity|]. repeat constructor.
  - split; [reflexivity|]. repeat constructor.
  - split; [reflexivity|]. unfold ex_weights. cbn [map]. repeat (apply Forall_cons; [split; [reflexivity|repeat (apply Forall_cons; [apply of32_nonneg; lia|]); apply Forall_nil]|]). apply Forall_nil.
Qed.

Definition ex_table : table := Table (fun r => match nth_error DsExamples.good_rows (N.to_nat r) with Some x => (Z.to_nat (Dscompress.ant1 x), Z.to_nat (Dscompress.ant2 x)) | None => (0, 0)%nat end)
  (fun r => if (r <? 2) then 0%Z else 1%Z) (fun _ => 0%Z) (fun _ => 0%Z).

Lemma ex_reads : reads_table ex_table DsExamples.good_rows.
Proof. exact DsExamples.good_describes. Qed.

Lemma ex_size d n : total 2 3 (map (tool_column (ex_options d n) 1 2) ["DATA"%string; "WEIGHT_SPECTRUM"%string]) < 2 ^ 32.
Proof. destruct n; reflexivity. Qed.

Lemma tool_example d n :
  options_ok Phi cauchy cauchy_density good_gsl (ex_options d n) /\
  compressible (ex_options d n) 1 2 DsExamples.good_rows ex_cols ex_flags ex_weights /\ reads_table ex_table DsExamples.good_rows /\
  exists cols' m e L, tool_ready good_gsl (ex_options d n) 1 2 DsExamples.good_rows ex_cols ex_flags cols' m e /\ levels e L /\
  first_block (colenv (config m e) ex_table 2 0) 2 /\ antenna_count (colenv (config m e) ex_table 2 0) 2 3 /\ total 2 3 (columns m) < 2 ^ 32 /\
  exists ks S, sys_order (config m e) ex_table 2 m (moved (config m e) (Dscompress.o_columns (ex_options d n)) cols' ex_weights 2) 4 ks S /\ all_closed S.
Proof.
  pose proof (good_options d n) as Hs. pose proof (ex_compressible d n) as Hc. pose proof ex_reads as Ht. split; trivial. split; trivial. split; trivial.
  destruct (tool_exists _ _ _ _ _ _ _ _ _ _ _ Hs Hc) as (cols' & m & e & L & Hr & Hl & _). exists cols', m, e, L. split; trivial. split; trivial.
  pose proof (md_columns _ _ _ _ _ (tool_is_made _ _ _ _ _ _ _ _ _ _ _ Hs Hc _ _ _ Hr)) as Ec.
  assert (F : first_block (colenv (config m e) ex_table 2 0) 2).
  { split; [reflexivity|]. split.
    - intros r Hr2. assert (E : r = 0 \/ r = 1) by lia. destruct E as [->| ->]; now repeat split.
    - intros (E & _). vm_compute in E. discriminate. }
  assert (A : antenna_count (colenv (config m e) ex_table 2 0) 2 3).
  { split.
    - intros r Hr2. assert (E : r = 0 \/ r = 1) by lia. destruct E as [->| ->]; split; apply Nat.ltb_lt; vm_compute; reflexivity.
    - exists 1. split; [reflexivity|]. right. reflexivity. }
  assert (Tt : total 2 (N.of_nat 3) (columns m) < 2 ^ 32) by (rewrite Ec; exact (ex_size d n)).
  split; trivial. split; trivial. split; [exact Tt|].
  destruct (tool_written _ _ _ _ _ _ _ _ _ _ _ Hs Hc _ _ _ Hr ex_table 2 2 3%nat L ltac:(discriminate) Ht F A Tt Hl (fun _ => 0) _ (so_new _ _ _ _ _ _)) as (_ & _ & Q).
  destruct (Q ltac:(now vm_compute)) as (ks & S & _ & Or & Cl). exists ks, S. now split.
Qed.
