(** Property theorems C42: TimeBlockBuffer.  Statements only. *)
From Verif Require Import Base TimeBlockBuffer TbbSpec TbbProofs TbbMore.

Theorem C42_buffer_is_map : forall A nSamp (cs : list (set_call A)), Forall (fun c => nSamp <= length (c_data c))%nat cs ->
  exists b, run_sets nSamp cs [] = Ok b /\
    (forall r c, last_call cs r = Some c -> GetData b r = Ok (firstn nSamp (c_data c)) /\
       exists rw, nth_error b r = Some rw /\ antenna1 rw = c_a1 c /\ antenna2 rw = c_a2 c) /\
    (forall r, last_call cs r = None -> (r < NRows b)%nat -> GetData b r = Ok []) /\
    (forall r, (NRows b <= r)%nat -> GetData b r = UB) /\
    (forall c, In c cs -> c_row c < NRows b)%nat /\
    (NRows b = 0%nat \/ exists c, In c cs /\ NRows b = S (c_row c)) /\
    (Empty b = true <-> cs = []).
Proof. exact @buffer_is_map. Qed.
Print Assumptions C42_buffer_is_map.

Theorem C42_max_antenna : forall A nSamp (cs : list (set_call A)) b', Forall (fun c => nSamp <= length (c_data c))%nat cs ->
  run_sets nSamp cs [] = Ok b' ->
  (forall r c, last_call cs r = Some c -> c_a1 c <= MaxAntennaIndex b' /\ c_a2 c <= MaxAntennaIndex b')%nat /\
  (MaxAntennaIndex b' = 0%nat \/ exists r c, last_call cs r = Some c /\ (MaxAntennaIndex b' = c_a1 c \/ MaxAntennaIndex b' = c_a2 c)).
Proof. exact @max_antenna. Qed.
Print Assumptions C42_max_antenna.

(** what the encoders work on: the same rows, with every sample converted *)
Theorem C42_convert : forall A B (f : A -> B) nSamp (cs : list (set_call A)) b, Forall (fun c => nSamp <= length (c_data c))%nat cs ->
  run_sets nSamp cs [] = Ok b ->
  NRows (ConvertVector f b) = NRows b /\
  forall r c, last_call cs r = Some c -> exists rw, nth_error (ConvertVector f b) r = Some rw /\
    antenna1 rw = c_a1 c /\ antenna2 rw = c_a2 c /\ visibilities rw = map f (firstn nSamp (c_data c)).
Proof. exact @convert_vector. Qed.
Print Assumptions C42_convert.

Example C42_example :
  run_sets 2 [SetCall 1 0 3 [10; 11]; SetCall 3 2 1 [20; 21]; SetCall 1 5 4 [30; 31; 32]] [] =
  Ok [DRow 0 0 []; DRow 5 4 [30; 31]; DRow 0 0 []; DRow 2 1 [20; 21]] /\
  MaxAntennaIndex [DRow 0 0 []; DRow 5 4 [30; 31]; DRow 0 0 []; DRow 2 1 [20; 21]] = 5 /\
  ConvertVector (fun x => x + 1) [DRow 0 0 []; DRow 5 4 [30; 31]] = [DRow 0 0 []; DRow 5 4 [31; 32]].
Proof. repeat split; reflexivity. Qed.
