(** Model of the text matchers: equals, contains, startswith, endswith of h2_string (source/utils/h2_string.cpp:37-61), Se, We, Substr,
    StartsWith, EndsWith (source/matcher/h2_matches_strcmp.cpp:1-56) and Eq of a text (source/matcher/h2_matches_equation.hpp:41-90).

    A text is the list of its bytes; a char pointer may be null.  basic_string::find and rfind are written out (StrModel.find_first
    and below).  Not modelled: Re (std::regex), the failure that is made when a matcher does not match. *)
From Coq Require Import List NArith Bool Arith.
From Verif Require Import Base StrModel GlobModel.
Import ListNotations.
Local Open Scope N_scope.

(** the text, or its tolower() (h2_string.cpp:45-46, 52-53, 59-60, 126-131) *)
Definition lowered (caseless : bool) (s : bytes) : bytes := if caseless then map tolower s else s.
(** h2_string::contains (h2_string.cpp:43-47) *)
Definition contains (caseless : bool) (s substr : bytes) : bool :=
  match find_first (lowered caseless substr) (lowered caseless s) with Some _ => true | None => false end.
(** h2_string::startswith (h2_string.cpp:49-54) *)
Definition startswith (caseless : bool) (s prefix : bytes) : bool :=
  if (length s <? length prefix)%nat then false
  else match find_first (lowered caseless prefix) (lowered caseless s) with Some O => true | _ => false end.
(** s.rfind(p): the last position (std::basic_string) (used at h2_string.cpp:59-60) *)
Fixpoint find_last (p s : bytes) : option nat :=
  match s with
  | [] => if prefixb p s then Some O else None
  | _ :: s' => match find_last p s' with Some i => Some (S i) | None => if prefixb p s then Some O else None end
  end.
(** h2_string::endswith (h2_string.cpp:56-61) *)
Definition endswith (caseless : bool) (s suffix : bytes) : bool :=
  if (length s <? length suffix)%nat then false
  else match find_last (lowered caseless suffix) (lowered caseless s) with Some i => (i =? length s - length suffix)%nat | None => false end.

(** a char pointer made a string (source/utils/h2_string.hpp:6) *)
Definition to_string (p : option bytes) : bytes := match p with Some s => c_str s | None => str "(null)" end.

(** the matchers with their text (h2_matches_strcmp.hpp:1-39) *)
Inductive tmatcher := Se (e : bytes) | We (e : bytes) | Substr (e : bytes) | StartsWith (e : bytes) | EndsWith (e : bytes).
(** the text looked at (h2_matches_strcmp.cpp:3-4, 20-21, 28-29, 36-37, 44-45, 52-53) *)
Definition looked_at (sq : bool) (a : bytes) : bytes := if sq then squash false a else a.
(** what is handed to c.fit (h2_matches_strcmp.cpp:5, 30, 38, 46, 54); wildcard_match with a budget that suffices (C04) *)
Definition text_result (ci sq : bool) (m : tmatcher) (a : bytes) : bool :=
  let a' := looked_at sq a in
  match m with
  | Se e => str_equals ci a' (looked_at sq e)
  | We e => match wildcard_match ci (S (S (length (c_str e)) * (S (length (c_str a')) * S (length (c_str a'))) + length (c_str a'))) (c_str e) (c_str a') with Some b => b | None => false end
  | Substr e => contains ci a' e
  | StartsWith e => startswith ci a' e
  | EndsWith e => endswith ci a' e
  end.
(** whether matches returns nullptr: C::fit (source/matcher/h2_matches.hpp:7) of the result (h2_matches_strcmp.cpp:1-56) *)
Definition text_match (neg ci sq : bool) (m : tmatcher) (a : bytes) : bool := Bool.eqb (text_result ci sq m a) (negb neg).

(** Eq of a text that is no pointer (h2_matches_equation.hpp:41-59) *)
Definition eq_text (neg ci sq : bool) (e a : bytes) : bool := Bool.eqb (str_equals ci (looked_at sq a) (looked_at sq e)) (negb neg).
(** Eq of a char pointer applied to a char pointer (h2_matches_equation.hpp:61-90, h2_matches_null at source/matcher/h2_matches.hpp:42-48) *)
Definition eq_pointer (neg ci sq : bool) (e a : option bytes) : bool :=
  match e with
  | None => Bool.eqb (match a with None => true | Some _ => false end) (negb neg)
  | Some s => eq_text neg ci sq (c_str s) (to_string a)
  end.
(** Eq of a char pointer applied to a std::string (h2_matches_equation.hpp:66-72, h2_matches_null at h2_matches.hpp:49-55) *)
Definition eq_pointer_string (neg ci sq : bool) (e : option bytes) (a : bytes) : bool :=
  match e with
  | None => Bool.eqb false (negb neg)
  | Some s => eq_text neg ci sq (c_str s) a
  end.
