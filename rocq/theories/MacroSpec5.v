(** What the macros for assertions and for parts of a case are for. *)
From Coq Require Import List NArith Arith.
From Verif Require Import Base MacroModel MacroSpec MacroSpec4.
Import ListNotations.
Local Open Scope N_scope.

(** the name made for this place of the program *)
Definition unique : list tok := words (str "H2PP_UNIQUE()").
Definition no_text : list tok := words (str """""").
(** an assertion: what is checked, and how it is spelled where it is reported *)
Definition asserts (oppose : bool) (e a checked : list tok) : list tok :=
  words (str "for (h2::h2_assert") ++ unique ++ group (words (if oppose then str "true" else str "false")) ++ words (str ";") ++ unique ++ words (str ";") ++ unique ++
  words (str ".failing") ++ group (listed [e; a; here]) ++ TRp :: checked.
Definition self : list tok := words (str "&") ++ unique.
(** what holds *)
Definition holds1 (oppose : bool) (x : list tok) : list tok := asserts oppose no_text (spelled x) (words (str "h2::h2_ok1") ++ group (listed [self; words (str "h2::h2_0cp() >") ++ x])).
(** what is expected of a value *)
Definition holds2 (oppose : bool) (e a : list tok) : list tok :=
  asserts oppose (spelled e) (group (spelled a))
    (words (str "h2::h2_ok2") ++ group (listed [self; e; a; words (str "std::is_array<decltype") ++ group a ++ words (str ">{}"); words (str "std::extent<decltype") ++ group a ++ words (str ">::value")])).
Definition json (e a selector : list tok) : list tok := asserts false (spelled e) (spelled a) (words (str "h2::h2_je") ++ group (listed [self; e; a; selector])).
(** values that are equal, or nearly *)
Definition equals (e : list tok) (near : option (list tok)) : list tok :=
  words (str "h2::Equals") ++ group (listed [e; match near with None => words (str "0") | Some a => words (str "h2::h2_approximate() *") ++ a ++ words (str "+ h2::h2_approximate::B") end]).
(** memory that is equal *)
Definition same_memory (b : list tok) (args : list (list tok)) : list tok := words (str "h2::Memcmp") ++ group (listed (b :: (words (str "std::extent<decltype") ++ group b ++ words (str ">::value")) :: args)).
(** a part of the case that is run once, with an object that lives as long *)
Definition part (kind : bytes) (arguments : list tok) : list tok := words (str "for (" ++ kind) ++ unique ++ arguments ++ words (str ";") ++ unique ++ words (str ";)").
Definition block (attributes : list tok) : list tok := part (str "h2::h2_memory::stack::block") (group (listed [words (str "h2::ss") ++ group attributes; here])).
Definition captures (m : list tok) (types : list (list tok)) : list tok := part (str "h2::h2_cout") (group (listed [m; spelled m; words (str "h2::ss") ++ group (spelled (listed types)); here])).
(** memory that is not watched: in a part of the case, or by functions *)
Definition unwatched (args : list (list tok)) : list tok := match args with [] => block (words (str """unmem""")) | _ => words (str "h2::h2_unmem") ++ group (listed args) end.
