(** What MATCHER and Member are for: the declaration of a matcher, and what is asked of an object. *)
From Coq Require Import List NArith Arith.
From Verif Require Import Base MacroModel MacroSpec MacroSpec2.
Import ListNotations.
Local Open Scope N_scope.

(** the declaration of a matcher with its parameters and its message *)
Definition declares (nm : list tok) (parameters : list (list tok)) (message : list tok) : list tok :=
  macro_use (str "H2MATCHER" ++ decimal (length parameters)) (nm :: parameters ++ [message]).
(** the message of a matcher that has none: an empty string literal *)
Definition silent : list tok := group [punct 34; punct 34].
(** names of parameters, the last of which is not all in parentheses *)
Definition parameters (vs : list (list tok)) : Prop := Forall value vs /\ (vs = [] \/ unwrapped (last vs [])).

(** the member itself, and the method called with arguments *)
Definition member_of (expect member : list tok) : list tok := words (str "h2::Member_member") ++ group (listed [expect; member]).
Definition type_of (v : list tok) : list tok := words (str "h2::mfp_decay<decltype") ++ group v ++ words (str ">::type").
Definition types_of (vs : list (list tok)) : list tok := listed (map type_of vs).
Definition method_of (expect method : list tok) (arguments : list (list tok)) : list tok :=
  words (str "h2::Member_method") ++ group (listed [expect;
    words (str "h2::mfp<") ++ types_of arguments ++ words (str ">::get") ++ group method;
    words (str "std::tuple<") ++ types_of arguments ++ words (str ">") ++ group (listed arguments)]).
