(** C69: the listing. *)
From Coq Require Import List NArith Bool Arith.
From Verif Require Import Base JunitModel JunitSpec ListingModel ListingSpec ListingProofs.
Import ListNotations.
Local Open Scope N_scope.

(** Whatever the number of tags, the listing begins with the lines of the suites and cases that are not filtered, in order and numbered. *)
Theorem C69_rows : forall lists gs, exists rows rest, listing lists gs = rows ++ rest /\ Rows lists [] gs rows.
Proof. exact rows_ok. Qed.
Print Assumptions C69_rows.
(** These are as many as there are suites, cases and todos to be listed. *)
Theorem C69_number : forall lists gs rows, Rows lists [] gs rows ->
  N.of_nat (length rows) = count (suite_listed lists) gs + count (case_listed lists) (entries gs) + count (todo_listed lists) (entries gs).
Proof. exact rows_all. Qed.
Print Assumptions C69_number.
(** Each suite, case or todo to be listed has its line, with its number. *)
Theorem C69_each : forall lists a g b,
  (suite_listed lists g = true -> exists line, In line (listing lists (a ++ g :: b)) /\ suite_row lists a g line) /\
  (forall x e y, g_entries g = x ++ e :: y -> entry_listed lists e = true -> exists line, In line (listing lists (a ++ g :: b)) /\ entry_row lists a g x e line).
Proof. exact each_listed. Qed.
Print Assumptions C69_each.
(** With no more than 1024 different tags the listing is these lines, the lines of the tags, and the line of totals. *)
Theorem C69_listing : forall lists gs, few_tags gs -> exists rows tagrows total,
  listing lists gs = rows ++ tagrows ++ [str "Listing " ++ total] /\ Rows lists [] gs rows /\
  TagRows gs 0 (if N.testbit lists 16 then tag_names false gs else []) tagrows /\ Joined (parts lists gs) total.
Proof. exact listing_ok. Qed.
Print Assumptions C69_listing.
Example C69_example : few_tags ex_groups /\ listing 0x11110 ex_groups =
  [str "SUITE-1. alpha a.cpp:3 fast net"; str " Case/1-1. one a.cpp:5 fast"; str " Todo/2-2. later a.cpp:12"; str " CASE/1-3. alone b.cpp:7 net";
   str "TAG-0. fast  1 suite 1 case"; str "TAG-1. net  1 suite 1 case";
   str "Listing 1 suite, 2 cases, 1 todo, 2 tags, 1 filtered suite, 2 filtered cases, 2 filtered tags"].
Proof. exact (conj ex_few ex_listing). Qed.
Example C69_cases_example : listing 0x100 ex_groups = [str " Case-1. one a.cpp:5"; str " CASE-2. alone b.cpp:7"; str "Listing 2 cases, 2 filtered cases"].
Proof. exact ex_only_cases. Qed.
(** The totals are not the numbers of suites and cases there are: over two rounds everything is listed and counted twice. *)
Theorem C69_rounds_refuted : exists lists gs, In (str "Listing 1 suite, 2 cases") (listing lists gs) /\ In (str "Listing 2 suites, 4 cases") (listing lists (gs ++ gs)).
Proof. exact rounds_double. Qed.
Print Assumptions C69_rounds_refuted.
(** Not every tag is listed: the 1025th is left out and not counted. *)
Theorem C69_tags_refuted : exists gs, length (tag_names false gs) = 1025%nat /\ In (str "Listing 1024 tags") (listing 0x10000 gs) /\
  forall line, In line (listing 0x10000 gs) -> firstn 9 line <> str "TAG-1024.".
Proof. exact crowd_lost. Qed.
Print Assumptions C69_tags_refuted.
