(** Specification vocabulary: rows of a stored table are overwritten. *)
From Verif Require Import Base TimeBlockBuffer Column ColumnSpec.
Local Open Scope N_scope.

Section update.
Context {e : env} (f : N -> option (bytes e)) (nb rp : N) (na : nat).

(** what the file holds of row [r] *)
Definition stored_row (r : N) : option (list (data e)) :=
  match f (r / rp) with
  | Some y => nth_error (dec e rp na (r / rp) y) (N.to_nat (r mod rp))
  | None => None
  end.

(** row [r] when [W] was put *)
Definition updated_row (W : N -> option (list (data e))) (r : N) : option (list (data e)) :=
  match W r with Some d => Some (firstn (nSamp e) d) | None => stored_row r end.

(** all rows of block [b], with the antennas of the table *)
Definition updated_block (W : N -> option (list (data e))) (b : N) (x : tbb (data e)) : Prop :=
  length x = N.to_nat rp /\
  forall i row, nth_error x i = Some row -> (antenna1 row, antenna2 row) = ants e (b * rp + N.of_nat i) /\
    updated_row W (b * rp + N.of_nat i) = Some (visibilities row).

(** An opened column of which rows, all satisfying [ok], are read and written (with
    values satisfying [okd]) in any order that does not go back to an earlier block;
    then it may be closed.
    [W]: what was put last in each row.  [b]: the block of the last call. *)
Inductive updating (ok : N -> Prop) (okd : list (data e) -> Prop) : (N -> option (list (data e))) -> N -> state e -> Prop :=
| ud_open : updating ok okd (fun _ => None) 0 (opened e f nb rp na)
| ud_put W b s row d : updating ok okd W b s -> status s = Running -> code s = [] -> closed s = false -> row < 2 ^ 32 -> ok row ->
    b <= row / rp -> okd d -> updating ok okd (upd_map W row d) (row / rp) (set_code s (call_code (Put row d)))
| ud_get W b s row : updating ok okd W b s -> status s = Running -> code s = [] -> closed s = false -> row < 2 ^ 32 -> ok row ->
    b <= row / rp -> updating ok okd W (row / rp) (set_code s (call_code (Get row)))
| ud_close W b s : updating ok okd W b s -> status s = Running -> code s = [] -> closed s = false -> updating ok okd W b (set_code s (call_code Shutdown))
| ud_step W b s s' : updating ok okd W b s -> step s s' -> code s <> [] \/ code s' = [] -> updating ok okd W b s'.

(** every row asked for is in a block of the file, which decodes to rows of [nSamp] samples *)
Definition readable (ok : N -> Prop) : Prop :=
  (forall r, ok r -> f (r / rp) <> None) /\
  forall b y, f b = Some y -> length (dec e rp na b y) = N.to_nat rp /\ Forall (fun v => length v = nSamp e) (dec e rp na b y).
End update.
