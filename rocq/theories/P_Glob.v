(** Final theorem about the built-in wildcard matcher (property C04). *)
From Coq Require Import List NArith Bool Arith.
From Verif Require Import Base GlobModel GlobSpec GlobProofs.
Import ListNotations.

(** The loop finishes within the stated number of iterations, and its answer is the glob relation. *)
Theorem C04_wildcard_is_glob : forall caseless pattern subject, cstr pattern -> cstr subject ->
  forall fuel,
  S (List.length pattern) * (S (List.length subject) * S (List.length subject)) + List.length subject < fuel ->
  exists b, wildcard_match caseless fuel pattern subject = Some b /\ (b = true <-> glob caseless pattern subject).
Proof. exact wildcard_match_correct. Qed.
Print Assumptions C04_wildcard_is_glob.

Example C04_wildcard_is_glob_ex :
  cstr (str "a*B?d*") /\ cstr (str "abxbbcd") /\
  wildcard_match true 600 (str "a*B?d*") (str "abxbbcd") = Some true /\
  wildcard_match false 600 (str "a*B?d*") (str "abxbbcd") = Some false.
Proof. split; [|split; [|split]]; try reflexivity; repeat constructor; discriminate. Qed.
