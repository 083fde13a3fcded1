(** Model of the stop watch with which [dscompress] reports how long it took
    (/repo/stopwatch.h, /repo/stopwatch.cc).  Times are the microseconds that
    [microsec_clock::local_time] gives, as integers. *)
From Coq Require Import String.
From Verif Require Import Base Floats.
Local Open Scope Z_scope.

(** The members of the class, stopwatch.h:58-61.  [startTime] is only
    assigned by the constructor with an argument and by [Start]; it is not
    read while the watch does not run. *)
Record watch := Watch { wrunning : bool; startTime : Z; wsum : Z }.

(** stopwatch.cc:27 *)
Definition newWatch : watch := Watch false 0 0.
(** stopwatch.cc:29-32; [t] is the time at the call, here and below *)
Definition newWatchStart (start : bool) (t : Z) : watch := Watch start t 0.
(** stopwatch.cc:36-41 *)
Definition start (t : Z) (w : watch) : watch := if wrunning w then w else Watch true t (wsum w).
(** stopwatch.cc:43-48 *)
Definition pause (t : Z) (w : watch) : watch := if wrunning w then Watch false (startTime w) (wsum w + (t - startTime w)) else w.
(** stopwatch.cc:50-53 *)
Definition reset (w : watch) : watch := Watch false (startTime w) 0.

(** stopwatch.cc:55-63 and 153-161: the time that both report *)
Definition current (t : Z) (w : watch) : Z := if wrunning w then wsum w + (t - startTime w) else wsum w.

(** The methods that change the watch, with the time at the call *)
Inductive press := Start (t : Z) | Pause (t : Z) | Reset (t : Z).
Definition time_of (p : press) : Z := match p with Start t | Pause t | Reset t => t end.
Definition press_watch (w : watch) (p : press) : watch :=
  match p with Start t => start t w | Pause t => pause t w | Reset _ => reset w end.

(** ** Texts *)

(** What is written to the stream: an integer, a number of tenths, text.
    The numbers are computed in 80-bit floats in the code, and printed with
    six digits.  Here they are exact.  The rounding of the floats does not
    change an integer that is printed with six digits, nor the results of
    [roundl], [floorl] and the comparisons with integers, because quotients
    of integers below 2^53 that are an integer, or half of one, are exact.
    The exception is a time exactly between two tenths of a second, which the
    code may round down.  (Numbers above 999999 are printed in scientific
    notation by the code.) *)
Inductive piece := Int (n : Z) | Tenths (n : Z) | Text (s : string).

(** [roundl] of [a / b], halves away from zero; [b] is positive *)
Definition roundq (a b : Z) : Z := if 0 <=? a then (2 * a + b) / (2 * b) else - ((2 * - a + b) / (2 * b)).

(** [Seconds] in thousandths, stopwatch.cc:153-161; [total_milliseconds] of
    boost divides the ticks, truncating towards zero *)
Definition millis (t : Z) (w : watch) : Z := Z.quot (current t w) 1000.

(** stopwatch.cc:83-91; [ms] is 1000 * Seconds(), here and below.  The number
    of days is [h / 24] *)
Definition toDays (ms : Z) : list piece :=
  let h := roundq ms 3600000 in
  if 240 <=? h then [Int (roundq h 24); Text " days"] else [Int (h / 24); Text "d"; Int h; Text "h"].
(** stopwatch.cc:93-101; the number of hours is [m / 60] *)
Definition toHours (ms : Z) : list piece :=
  let m := roundq ms 60000 in
  if 600 <=? m then [Int (roundq m 60); Text "h"] else [Int (m / 60); Text "h"; Int m; Text "m"].
(** stopwatch.cc:103-111; the number of minutes is [s / 60]; [fmod]
    truncates towards zero *)
Definition toMinutes (ms : Z) : list piece :=
  let s := roundq ms 1000 in
  if 600 <=? s then [Int (roundq s 60); Text " min"] else [Int (s / 60); Text "m"; Int (Z.rem s 60); Text "s"].
(** stopwatch.cc:113-121; [d] tenths of seconds *)
Definition toSeconds (ms : Z) : list piece :=
  let d := roundq ms 100 in
  if 100 <=? d then [Int (roundq ms 1000); Text "s"] else [Tenths d; Text "s"].
(** stopwatch.cc:123-131 *)
Definition toMilliSeconds (ms : Z) : list piece :=
  let d := ms * 10 in
  if 100 <=? d then [Int ms; Text "ms"] else [Tenths d; Text "ms"].
(** stopwatch.cc:133-141; the code writes the Greek letter mu for the [u] *)
Definition toMicroSeconds (ms : Z) : list piece :=
  let d := ms * 10000 in
  if 100 <=? d then [Int (ms * 1000); Text "us"] else [Tenths d; Text "us"].
(** stopwatch.cc:143-151 *)
Definition toNanoSeconds (ms : Z) : list piece :=
  let d := ms * 10000000 in
  if 100 <=? d then [Int (ms * 1000000); Text "ns"] else [Tenths d; Text "ns"].

(** [1 / 1000] in 80-bit floats is below the double [0.001] *)
Definition one_ms_below : bool :=
  Bltb (div80 (of80 1) (of80 1000)) (to80 (div64 (of64 1) (of64 1000))).
(** stopwatch.cc:65-81.  The comparison with [0.001] is false for one
    millisecond ([one_ms_below]), that with [0.000001] only for 0 and less. *)
Definition toShort (ms : Z) : list piece :=
  if 86400000 <=? ms then toDays ms
  else if 3600000 <=? ms then toHours ms
  else if 60000 <=? ms then toMinutes ms
  else if 1000 <=? ms then toSeconds ms
  else if 2 <=? ms then toMilliSeconds ms
  else if 1 <=? ms then toMicroSeconds ms
  else toNanoSeconds ms.

(** [to_simple_string] of boost (trusted): sign, hours, minutes, seconds and
    microseconds; all fields of a negative time are negative, and the sign is
    written once *)
Definition toSimple (us : Z) : bool * (Z * Z * Z * Z) :=
  let a := Z.abs us in
  (us <? 0, (a / 3600000000, (a / 60000000) mod 60, (a / 1000000) mod 60, a mod 1000000)).
