(** Property theorems C72: the stop watch.  Statements only. *)
From Coq Require Import String.
From Verif Require Import Base Stopwatch StopwatchSpec StopwatchProofs.
Local Open Scope Z_scope.

(** ** C72 *)
(** For every sequence of presses in the order of time, the watch reports the number of
    microseconds in which it ran since it was reset. *)
Theorem C72_measures : forall h t a, ordered h t -> (forall q, In q h -> a <= time_of q) -> a <= t ->
  current t (fold_left press_watch h newWatch) = ticks (measured h) a t.
Proof. exact watch_inv. Qed.
Print Assumptions C72_measures.

(** Started, paused, started, reset, started, started again, paused, and then read: the 5
    microseconds from 20 to 25 and nothing else *)
Example C72_measures_example :
  let h := [Start 3; Pause 7; Start 9; Reset 15; Start 20; Start 22; Pause 25] in
  ordered h 40 /\ current 40 (fold_left press_watch h newWatch) = 5 /\ ticks (measured h) 0 40 = 5.
Proof.
  split; [|split; reflexivity]. cbn. repeat split; try discriminate; intros q Hq; repeat destruct Hq as [<-|Hq]; try discriminate; destruct Hq.
Qed.

(** dscompress.cc:229 constructs a watch that runs: this is pressing start *)
Theorem C72_constructor : forall t, newWatchStart true t = press_watch newWatch (Start t) /\ press_watch (newWatchStart false t) (Start t) = press_watch newWatch (Start t).
Proof. intro t. split; reflexivity. Qed.
Print Assumptions C72_constructor.

(** What [ToString] writes (as dscompress prints it): hours, minutes, seconds and
    microseconds add up to the time *)
Theorem C72_text : forall us, 0 <= us -> exists h m s f, toSimple us = (false, (h, m, s, f)) /\
  0 <= h /\ 0 <= m < 60 /\ 0 <= s < 60 /\ 0 <= f < 1000000 /\ ((h * 60 + m) * 60 + s) * 1000000 + f = us.
Proof. exact simple_shown. Qed.
Print Assumptions C72_text.
Example C72_text_example : toSimple 93784000005 = (false, (26, 3, 4, 5)).
Proof. reflexivity. Qed.

(** [ToShortString] below an hour, from 10 hours to a day, and from 10 days: what it shows
    is the time, up to half of the last unit shown *)
Theorem C72_short : forall ms,
  (0 <= ms < 1000 -> shows_within 0 (toShort ms) ms) /\
  (1000 <= ms < 60000 -> shows_within (if ms <? 9950 then 50 else 500) (toShort ms) ms) /\
  (60000 <= ms < 3600000 -> shows_within (if ms <? 599500 then 500 else 30500) (toShort ms) ms) /\
  (36000000 <= ms < 86400000 -> shows_within 1830000 (toShort ms) ms) /\
  (864000000 <= ms -> shows_within 45000000 (toShort ms) ms).
Proof. exact (fun ms => conj (ms_shown ms) (conj (seconds_shown ms) (conj (minutes_shown_within ms) (conj (hours_shown ms) (days_shown ms))))). Qed.
Print Assumptions C72_short.
Example C72_short_example :
  toShort 94600 = [Int 1; Text "m"; Int 35; Text "s"] /\ toShort 1260 = [Tenths 13; Text "s"] /\ toShort 1 = [Int 1000; Text "us"] /\
  toShort 1234567 = [Int 21; Text " min"] /\ toShort 50000000 = [Int 14; Text "h"] /\ toShort 1000000000 = [Int 12; Text " days"].
Proof. repeat split. Qed.
(** One millisecond is shown as 1000 microseconds, because of this comparison of floats *)
Example C72_one_millisecond : one_ms_below = true.
Proof. vm_compute. reflexivity. Qed.

(** In between it is not: between 1 and 10 hours the whole hours are shown twice (1 hour and
    1 minute is shown as "1h61m"), between 1 and 10 days the whole days (25 hours: "1d25h"). *)
Theorem C72_hours_refuted : exists m d : Z,
  toShort m = [Int 1; Text "h"; Int 61; Text "m"] /\ m = 3660000 /\ (~ shows_within 3000000 (toShort m) m) /\
  toShort d = [Int 1; Text "d"; Int 25; Text "h"] /\ d = 90000000 /\ (~ shows_within 80000000 (toShort d) d).
Proof.
  exists 3660000, 90000000. repeat split; intros (v & E & H); vm_compute in E; injection E as <-; revert H; vm_compute; intro H; apply H; reflexivity.
Qed.
Print Assumptions C72_hours_refuted.
(** What is shown between 1 and 10 hours is always an hour too much, or more *)
Theorem C72_hours_twice : forall ms, 3600000 <= ms < 35970000 -> exists v, meaning (toShort ms) = Some v /\ v >= ms * 10000000 + 3570 * 10000000000.
Proof. exact hours_twice. Qed.
Print Assumptions C72_hours_twice.
Example C72_hours_twice_example : toShort 20000000 = [Int 5; Text "h"; Int 333; Text "m"].
Proof. reflexivity. Qed.

(** The watch reads local time.  When the clocks are put back an hour while it runs, [u]
    microseconds of real time are not what it reports. *)
Theorem C72_local_time_refuted : exists (offset : Z -> Z) (u0 u1 : Z), u0 <= u1 /\
  (forall u, offset u = 7200000000 \/ offset u = 3600000000) /\
  current (u1 + offset u1) (press_watch newWatch (Start (u0 + offset u0))) <> u1 - u0 /\
  toSimple (current (u1 + offset u1) (press_watch newWatch (Start (u0 + offset u0)))) = (true, (0, 43, 20, 0)).
Proof.
  exists (fun u => if u <? 1000000000 then 7200000000 else 3600000000), 500000000, 1500000000.
  split; [discriminate|]. split; [intro u; destruct (u <? 1000000000); auto|]. split; [discriminate|reflexivity].
Qed.
Print Assumptions C72_local_time_refuted.

(** Times below a millisecond are shown as 0: [Seconds] counts whole milliseconds. *)
Theorem C72_below_millisecond : forall t us, 0 <= us < 1000 ->
  toShort (millis (t + us) (press_watch newWatch (Start t))) = [Tenths 0; Text "ns"].
Proof. exact below_ms. Qed.
Print Assumptions C72_below_millisecond.
Example C72_below_millisecond_example : toShort (millis 5999 (press_watch newWatch (Start 5000))) = [Tenths 0; Text "ns"].
Proof. reflexivity. Qed.
