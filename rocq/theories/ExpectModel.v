(** Model of the texts that tell what a matcher expects: C::pre, C::post and every expection (source/matcher/h2_matches.hpp:13-79,
    source/matcher/h2_matcher.hpp:19, 67, 70 and the other files of source/matcher).

    The context C and the options of h2_polymorphic_matcher are those of MatcherModel, with no_compare_operator beside them.  Types are
    given by their names; numbers computed for a margin are given as values. *)
From Coq Require Import List NArith ZArith Bool Arith.
From Verif Require Import Base StrModel LineModel JunitModel MessageModel MatcherModel ValueModel.
Import ListNotations.
Local Open Scope N_scope.

(** the comparisons of source/matcher/h2_matches_inequation.hpp:1-67 *)
Inductive comparison := GreaterEqual | Greater | LessEqual | Less.
(** the sign of a comparison (h2_matches_inequation.hpp:14, 31, 48, 65) *)
Definition sign (o : comparison) : bytes :=
  match o with GreaterEqual => [226; 137; 165] | Greater => [62] | LessEqual => [226; 137; 164] | Less => [60] end.
(** the functions that make an h2_has2_matches (h2_matches_container.hpp:174-189, 314-319) *)
Inductive has_kind := HasBoth | HasKey | HasValue.

(** matchers with what their texts are made of (source/matcher; h2_matches.hpp:24-79 and as cited in each line) *)
Inductive expected :=
| XPlain (v : value)                                    (* a value where a matcher is expected, h2_matches.hpp:79 *)
| XPoly (f : flags) (m : expected)                      (* h2_matcher.hpp:61-70 *)
| XAny                                                  (* h2_matches.hpp:28-39 *)
| XNull                                                 (* h2_matches.hpp:41-60 *)
| XBool (b : bool)                                      (* h2_matches.hpp:62-76 *)
| XEq (v : value)                                       (* h2_matches_equation.hpp:17-39, 117-159 without margin *)
| XNear (v : value) (percent : bool) (margin : value)   (* h2_matches_equation.hpp:117-159 *)
| XText (s : bytes)                                     (* h2_matches_equation.hpp:41-90, h2_matches_strcmp.hpp:1-6 *)
| XType (name : bytes)                                  (* h2_matches_equation.hpp:1-15 *)
| XOrder (o : comparison) (v : value)                   (* h2_matches_inequation.hpp:1-67 *)
| XNamed (name : bytes) (s : bytes)                     (* Re, We, Substr, StartsWith, EndsWith, h2_matches_strcmp.hpp:8-38 *)
| XJson (s : bytes)                                     (* h2_matches_json.hpp:1-6 *)
| XMemory                                               (* h2_matches_memcmp.hpp:43 *)
| XRange (start : value) (end_ step : option value)     (* h2_matches_range.hpp:8-34 *)
| XCustom (name : bytes) (args : list value)            (* h2_matcher_customize.hpp:1-76 *)
| XNot (m : expected)                                   (* h2_matches_logic.hpp:1-15 *)
| XCond (b : bool) (mt mf : expected)                   (* h2_matches_logic.hpp:17-33 *)
| XAnd (ml mr : expected)                               (* h2_matches_logic.hpp:35-66 *)
| XOr (ml mr : expected)                                (* h2_matches_logic.hpp:68-102 *)
| XAllOf (l : list expected)                            (* h2_matches_logic.hpp:104-135 *)
| XAnyOf (l : list expected)                            (* h2_matches_logic.hpp:137-173 *)
| XNoneOf (l : list expected)                           (* h2_matches_logic.hpp:175-209 *)
| XCaseLess (m : expected)                              (* h2_matches_strcmp.hpp:40-47 *)
| XSpaceLess (m : expected)                             (* h2_matches_strcmp.hpp:49-56 *)
| XPass (m : expected)                                  (* Pointee, Member, CastOf, h2_matches_pointee.hpp:11-14, h2_matches_member.hpp:12, 54 *)
| XPair (k v : expected)                                (* h2_matches_container.hpp:26-55 *)
| XEvery2 (k v : expected)                              (* h2_matches_container.hpp:122-131 *)
| XHas2 (h : has_kind) (k v : expected)                 (* h2_matches_container.hpp:174-189 *)
| XListOf (l : list expected)                           (* h2_matches_container.hpp:191-230 *)
| XElements (name : bytes) (m : expected).              (* Every, Has, CountOf, MaxOf, MinOf, AvgOf, MedianOf, h2_matches_container.hpp:79-85 *)

(** C::pre (h2_matches.hpp:13-20) *)
Definition pre (nop : bool) (c : ctx) (ns : bytes) : line :=
  (if negb nop && c_neg c then [ns] else []) ++ (if c_ci c then [str "~"] else []) ++ (if c_sq c then [str "*"] else []).
(** pre's default argument (h2_matches.hpp:13) *)
Definition bang : bytes := [33].
(** pre("≠") (h2_matches_equation.hpp:37) *)
Definition unequal : bytes := [226; 137; 160].
(** C::post (h2_matches.hpp:21) *)
Definition post (c : ctx) : line := if (c_times c =? 1)%Z then [] else [str " * "] ++ print false (VInt (c_times c)).
(** c.update_caseless(false).pre(ns) (h2_matches_logic.hpp:64 and others) *)
Definition pre' (nop : bool) (c : ctx) (ns : bytes) : line := pre nop (upd_ci c false) ns.
(** c.squash_whitespace ? e.squash() : e (h2_matches_strcmp.cpp:10) *)
Definition squashed (c : ctx) (s : bytes) : bytes := if c_sq c then squash false s else s.
(** h2_line::has (source/utils/h2_line.cpp:61-66) *)
Definition has_word (w : bytes) (l : line) : bool := existsb (bytes_eqb w) l.
(** " and " (h2_matches_logic.hpp:62) *)
Definition and_word : bytes := str " and ".
(** " or " (h2_matches_logic.hpp:98) *)
Definition or_word : bytes := str " or ".
(** gray("(") + s + gray(")") if asked for (h2_matches_logic.hpp:59, 61, 63, 97, 99) *)
Definition paren_if (b : bool) (l : line) : line := if b then gray (str "(") ++ l ++ gray (str ")") else l.
(** gray(", ") between the arguments of a customised matcher (h2_matcher_customize.hpp:37, 48, 60, 73) *)
Fixpoint arguments (vs : list value) : line :=
  match vs with [] => [[]] | [v] => print true v | v :: r => print true v ++ gray (str ", ") ++ arguments r end.
(** what a has kind is called (h2_matches_container.hpp:178-187, 314-319) *)
Definition has_name (h : has_kind) : bytes := match h with HasBoth => str "Has" | HasKey => str "HasKey" | HasValue => str "HasValue" end.

(** expection of every matcher (as cited at the constructors; h2_matches.hpp:24-79) *)
Fixpoint expection (nop : bool) (m : expected) (c : ctx) {struct m} : line :=
  match m with
  | XPlain v => print true v
  | XPoly f m1 => expection nop m1 (configure f c)
  | XAny => [if c_neg c then str "!Any" else str "Any"]
  | XNull => [if c_neg c then str "!NULL" else str "NULL"]
  | XBool b => [if (if b then c_neg c else negb (c_neg c)) then str "false" else str "true"]
  | XEq v => pre' nop c unequal ++ print true v
  | XNear v percent d => pre' nop c unequal ++ print false v ++ [[194; 177]] ++ print false d ++ (if percent then [str "%"] else [])
  | XText s => pre nop c unequal ++ print true (VText (squashed c s))
  | XType name => pre' nop c unequal ++ [name]
  | XOrder o v => pre' nop c bang ++ [if nop then [] else sign o] ++ print (match o with GreaterEqual => true | _ => false end) v
  | XNamed name s => pre nop c bang ++ [name] ++ gray (str "(") ++ print true (VText s) ++ gray (str ")")
  | XJson s => pre nop c unequal ++ print false (VText s)
  | XMemory => pre nop c bang ++ [str "Me()"]
  | XRange start e step =>
      pre' nop c bang ++ [str "Range"] ++ gray (str "(") ++ print false start ++ match e with Some v => gray (str ", ") ++ print false v | None => [] end
      ++ match step with Some v => gray (str ", ") ++ print false v | None => [] end ++ gray (str ")")
  | XCustom name args => pre nop c bang ++ [name] ++ gray (str "(") ++ arguments args ++ gray (str ")")
  | XNot m1 => expection nop m1 (upd_neg c (negb (c_neg c)))
  | XCond b mt mf => if b then expection nop mt c else expection nop mf c
  | XAnd ml mr =>
      let sl := expection nop ml (upd_neg c false) in
      let sr := expection nop mr (upd_neg c false) in
      pre' nop c bang ++ paren_if (c_neg c) (paren_if (has_word or_word sl) sl ++ [and_word] ++ paren_if (has_word and_word sr || has_word or_word sr) sr)
  | XOr ml mr =>
      let sl := expection nop ml (upd_neg c false) in
      let sr := expection nop mr (upd_neg c false) in
      pre' nop c bang ++ paren_if (c_neg c) (sl ++ [or_word] ++ paren_if (has_word or_word sr) sr)
  | XAllOf l => pre' nop c bang ++ [str "AllOf"] ++ gray (str "(") ++ separated (map (fun m1 => expection nop m1 (upd_neg c false)) l) true ++ gray (str ")")
  | XAnyOf l => pre' nop c bang ++ [str "AnyOf"] ++ gray (str "(") ++ separated (map (fun m1 => expection nop m1 (upd_neg c false)) l) true ++ gray (str ")")
  | XNoneOf l => pre' nop c bang ++ [str "NoneOf"] ++ gray (str "(") ++ separated (map (fun m1 => expection nop m1 (upd_neg c false)) l) true ++ gray (str ")")
  | XCaseLess m1 => expection nop m1 (upd_ci c true)
  | XSpaceLess m1 => expection nop m1 (upd_sq c true)
  | XPass m1 => expection nop m1 c
  | XPair k v => pre' nop c bang ++ gray (str "(") ++ expection nop k c ++ gray (str ", ") ++ expection nop v c ++ gray (str ")")
  | XEvery2 k v => pre' nop c bang ++ [str "Every"] ++ gray (str "(") ++ expection nop k c ++ gray (str ", ") ++ expection nop v c ++ gray (str ")")
  | XHas2 h k v =>
      pre' nop c bang ++ [has_name h] ++ gray (str "(")
      ++ match h with
         | HasBoth => expection nop k (upd_neg c false) ++ [str ", "] ++ expection nop v (upd_neg c false)
         | HasKey => expection nop k (upd_neg c false)
         | HasValue => expection nop v (upd_neg c false)
         end ++ gray (str ")") ++ post c
  | XListOf l => pre' nop c bang ++ gray (str "[") ++ separated (map (fun m1 => expection nop m1 (upd_neg c false)) l) true ++ gray (str "]")
  | XElements name m1 => pre' nop c bang ++ [name] ++ gray (str "(") ++ expection nop m1 (upd_neg (upd_ci c false) false) ++ gray (str ")") ++ post c
  end.
