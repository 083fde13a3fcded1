(** A column together with its encoder: the instances of [Column.env] for the four
    encoders of [Block].  What [Column] leaves open, the bytes of a block, is
    computed by [encodeAndWrite] and [loadBlock]. *)
From Verif Require Import Base Floats TimeBlockBuffer BytePacker TimeBlockEncoders Block Column.
Local Open Scope N_scope.

(** The main table: ANTENNA1 and ANTENNA2, TIME, FIELD_ID, DATA_DESC_ID
    (threadeddyscocolumn.cc:46-57). *)
Record table := Table { t_ants : N -> nat * nat; t_time : N -> Z; t_field : N -> Z; t_ddid : N -> Z }.

(** antennas of the rows of block [b] (threadeddyscocolumn.cc:92-100) *)
Definition block_ants (T : table) (rp b : N) (i : nat) : nat * nat := t_ants T (b * rp + N.of_nat i).

(** threadeddyscocolumn.cc:259-336 for [enc], with any random numbers and any
    contents of the buffers of the encoding thread; 78-104 for [dec].
    Simplifications: the buffer for the symbols read holds zeros (C57: its contents
    do not matter), and a block that cannot be decoded has no rows, so that
    reading one of its rows is undefined (in the code decoding it already is: C24). *)
Definition stored_column (c : codec) (isAf : bool) (bits : N) (nS : nat) (T : table) (nt : nat) : env := {|
  data := sample c; bytes := list N; nSamp := nS;
  enc := fun rp na x y => N.of_nat (length x) <= rp /\ exists g packed sym bufs,
    (length packed = CalculateBlockSize c bits (N.to_nat rp) na /\ length sym = nSymbols c (N.to_nat rp) /\
     Forall (fun v => v < 2 ^ 8) packed /\ Forall (fun v => v < 2 ^ 32) sym) /\
    encodeAndWrite c bits (N.to_nat rp) na g x packed sym = Ok (y, bufs);
  dec := fun rp na b y => match loadBlock c bits (N.to_nat rp) na (block_ants T rp b) y (repeat 0 (nSymbols c (N.to_nat rp))) with
    | Ok rows => rows
    | _ => []
    end;
  ants := t_ants T; time := t_time T; field := t_field T; ddid := t_ddid T; nthreads := nt; af := isAf |}.

(** dyscodatacolumn.cc, dyscoweightcolumn.cc *)
Definition row_column e bits nPol nChan := stored_column (row_codec e nPol nChan) false bits (nPol * nChan).
Definition rf_column e bits nPol nChan := stored_column (rf_codec e nPol nChan) false bits (nPol * nChan).
Definition af_column e bits nPol nChan := stored_column (af_codec e nPol nChan) true bits (nPol * nChan).
Definition weight_column bits nPol nChan := stored_column (weight_codec nPol nChan bits) false bits (nPol * nChan).
