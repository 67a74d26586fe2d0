(** Model of PF(ms): h2_timer (source/assert/h2_timer.hpp:1-10, source/assert/h2_timer.cpp:1-16) with the loop of its block
    (source/utils/h2_misc.hpp:3-6).

    clock() counts in millionths of a second (CLOCKS_PER_SEC of POSIX) and does not overflow; its two readings come with the call.  A double
    is a rational that has been rounded; the rounding is the parameter [rnd].  Conversions of integers to double are exact (below 2^53). *)
From Coq Require Import List NArith ZArith QArith Qround Bool.
From Verif Require Import Base LineModel FailModel MockmsgModel.
Import ListNotations.
Local Open Scope Z_scope.

(** (clock() - start) * 1000.0 / CLOCKS_PER_SEC (h2_timer.cpp:9) *)
Definition cost (rnd : Q -> Q) (start now : Z) : Q := rnd (rnd (inject_Z (now - start) * 1000) / 1000000)%Q.
(** (int)delta (h2_timer.cpp:12): towards zero *)
Definition truncated (q : Q) : Z := if Qle_bool 0 q then Qfloor q else Qceiling q.
(** line.printf with an empty style (source/utils/h2_line.cpp:23-31) *)
Definition plain_words (s : bytes) : line := [s].
(** the line of the failure (h2_timer.cpp:11-12) *)
Definition slow (ms shown : Z) : line :=
  [str "performance expect < "] ++ printf_words (str "green") (number_of ms) ++ plain_words (str " ms, but actually cost ") ++ printf_words (str "red") (number_of shown) ++ plain_words (str " ms").
(** ~h2_timer (h2_timer.cpp:6-16): the counters of assertions and the failure raised *)
Definition timer (rnd : Q -> Q) (filine : bytes) (ms start now : Z) (n : Z * Z * Z) : (Z * Z * Z) * option note :=
  let delta := cost rnd start now in
  (count_assert n, if Qle_bool delta (inject_Z ms) then None else Some (Note None (slow ms (truncated delta)) filine [])).
(** h2_once::operator bool (h2_misc.hpp:3-6): the result and the counter, of 64 bits *)
Definition once (c : Z) : bool * Z := (c =? 0, (c + 1) mod 2 ^ 64).
(** for (h2_timer Q(ms, place); Q;) body (h2_timer.hpp:9-10): how often the body is run; at most [fuel] tests *)
Fixpoint times_run (fuel : nat) (c : Z) : option nat :=
  match fuel with
  | O => None
  | S f => let '(go, c') := once c in if go then match times_run f c' with Some k => Some (S k) | None => None end else Some O
  end.
