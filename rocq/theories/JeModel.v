(** Model of the JSON matcher Je and the assertion JE (source/matcher/h2_matches_json.cpp, h2_matches_json.hpp, source/assert/h2_assert.hpp:21-25)
    and of h2_json::select (source/json/h2_json.cpp:21-28).

    Parsing, comparing, finding and printing are those of JsonModel and PrintModel; the context and the operators those of MatcherModel;
    whether an assertion fails is FailModel's [stash].  Failures carry no text here but whether the documents are called ill-formed. *)
From Coq Require Import List NArith ZArith Bool.
From Verif Require Import Base FilterModel JsonModel PrintModel FailModel MatcherModel.
Import ListNotations.
Local Open Scope N_scope.

(** what comes of a match (h2_matches_json.cpp:1-9): accepted, refused (with the word "illformed json" or not), an exception from the
    parser, a null node used by select (h2_tree.cpp:16) *)
Inductive verdict := Accepted | Refused (illformed : bool) | Exception_ | Segfault.
(** a text, an exception or a null node used (h2_json.cpp:21-28) *)
Inductive selected := Text (s : bytes) | SelectThrows | SelectCrashes.

Section Je.
(** the type of numbers (value_double, h2_node.cpp:15; a parameter here) *)
Variable num : Type.
(** the value of a number's text (tinyexpr::evaluate, h2_syntax.cpp:76) *)
Variable ev : bytes -> option num.
(** the text of a number (h2_node.cpp:58-70) *)
Variable show : num -> bytes.
(** comparison of numbers (h2_match.cpp:30-34) *)
Variable near : num -> num -> bool.
(** whether a pattern accepts a text (h2_match.cpp:37-39) *)
Variable pat : bool -> bytes -> bytes -> bool.
(** O.fold_json (h2_json.cpp:27) *)
Variable fold : bool.

(** h2_json::select (h2_json.cpp:21-28) *)
Definition json_select (cl : bool) (a selector : bytes) : selected :=
  match tree_of ev a with
  | Throws | Calls => SelectThrows
  | Fails => Text a
  | Done v _ =>
      match follow cl (Some v) (steps_of selector) with
      | Found w => Text (select_text show fold w)
      | Missing => Text []
      | NullDeref => SelectCrashes
      end
  end.
(** h2_matches_json::matches (h2_matches_json.cpp:1-9) *)
Definition je (e selector : bytes) (c : ctx) (a : bytes) : verdict :=
  match match selector with [] => Text a | _ => json_select (c_ci c) a selector end with
  | SelectThrows => Exception_
  | SelectCrashes => Segfault
  | Text a' =>
      match json_match ev near pat (c_ci c) e a' with
      | None => Exception_
      | Some ret => if (ret <? 0)%Z then Refused true else if fit c (ret =? 0)%Z then Accepted else Refused false
      end
  end.
(** Je with operators and inside Not (h2_matches_json.hpp:8, h2_matcher.hpp:22-71, h2_matches_logic.hpp:1-15) *)
Inductive jmatcher := Je (e selector : bytes) | Operated (ops : list oper) (m : jmatcher) | Not_ (m : jmatcher).
(** matches of these (h2_matches_json.cpp:1, h2_matcher.hpp:60-66, h2_matches_logic.hpp:9) *)
Fixpoint jmatches (m : jmatcher) (c : ctx) (a : bytes) : verdict :=
  match m with
  | Je e selector => je e selector c a
  | Operated ops m' => jmatches m' (configure (fold_left apply_op ops flags0) c) a
  | Not_ m' => jmatches m' (upd_neg c (negb (c_neg c))) a
  end.
(** the failure a verdict is (h2_matches_json.cpp:6-8); None: the assertion is not finished *)
Definition failure (v : verdict) : option fail := match v with Accepted => Some Null | Refused _ => Some (new_fail 1) | Exception_ | Segfault => None end.
(** OK and KO with a matcher (h2_assert.hpp:27-39, 90-97; h2_assert.cpp:36-53): whether the assertion holds *)
Definition asserted (oppose : bool) (m : jmatcher) (a : bytes) : option bool :=
  match failure (jmatches m ctx0 a) with Some f => Some (isnull (stash oppose f)) | None => None end.
(** JE (h2_assert.hpp:21-25, 99-103) *)
Definition assert_je (e a selector : bytes) : option bool := asserted false (Je e selector) a.
End Je.
