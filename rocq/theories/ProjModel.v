(** Model of the matchers that go on to another value: Pointee (source/matcher/h2_matches_pointee.hpp:1-18), Member
    (source/matcher/h2_matches_member.hpp:1-59) and CastOf (source/matcher/h2_matches_cast.hpp:1-17), together with the
    combinators and containers around and within them (source/matcher/h2_matches_logic.hpp,
    source/matcher/h2_matches_container.hpp), on values that are pointers, objects and sequences of them.

    Reading through a null pointer is undefined: None.  A member, a method with its arguments and a conversion are arbitrary
    functions of the object or value (methods do not change it).  A base matcher is an arbitrary predicate of the value and
    the two string flags, as in MatcherModel, which has the context, the flags and the operators.  Texts of failures are not
    modelled. *)
From Coq Require Import List ZArith NArith Bool.
From Verif Require Import FailModel MatcherModel.
Import ListNotations.
Local Open Scope Z_scope.

(** values: anything plain, raw or smart pointers (None: null), objects by their members, sequence containers (the argument of matches, h2_matches_pointee.hpp:7, h2_matches_member.hpp:8, 48) *)
Inductive pval := Plain (v : val) | Ptr (p : option pval) | Obj (members : list pval) | Seq (l : list pval).

(** h2_pointer_if (source/utils/h2_template.hpp:51-56) and reading through its result: the object itself or what a pointer leads to *)
Definition pointer_if (v : pval) : option pval := match v with Ptr p => p | _ => Some v end.
(** the elements of a container; other values do not compile, [] here (the loops of h2_matches_container.hpp:104-110, 156-163) *)
Definition items (v : pval) : list pval := match v with Seq l => l | _ => [] end.

(** matcher expressions (h2_matches_logic.hpp:1-173, h2_matches_pointee.hpp:1-14, h2_matches_member.hpp:1-13, 41-52, h2_matches_cast.hpp:1-14, h2_matches_container.hpp:96-172, as cited in each line) *)
Inductive pmatcher :=
| PBase (q : bool -> bool -> pval -> bool)                  (* h2_matches.hpp:28-75 and others *)
| PPoly (f : flags) (m : pmatcher)                          (* h2_matcher.hpp:61-70 *)
| PNot (m : pmatcher)                                       (* h2_matches_logic.hpp:1-15 *)
| PAnd (ml mr : pmatcher)                                   (* h2_matches_logic.hpp:35-66 *)
| POr (ml mr : pmatcher)                                    (* h2_matches_logic.hpp:68-102 *)
| PAllOf (l : list pmatcher)                                (* h2_matches_logic.hpp:104-135 *)
| PAnyOf (l : list pmatcher)                                (* h2_matches_logic.hpp:137-173 *)
| PPointee (m : pmatcher)                                   (* h2_matches_pointee.hpp:1-14 *)
| PMember (g : pval -> pval) (m : pmatcher)                 (* h2_matches_member.hpp:1-13, 41-52 *)
| PCastOf (g : pval -> pval) (m : pmatcher)                 (* h2_matches_cast.hpp:1-14 *)
| PEvery (m : pmatcher)                                     (* h2_matches_container.hpp:96-120 *)
| PHas (m : pmatcher).                                      (* h2_matches_container.hpp:133-172 *)

(** the loop of Every (h2_matches_container.hpp:104-110); [ev] = the inner match *)
Fixpoint every_items (inr : Z -> bool) (ev : pval -> option fail) (i : Z) (fails : fail) (l : list pval) : option fail :=
  match l with
  | [] => Some fails
  | a :: r => if inr i then match ev a with Some f => every_items inr ev (i + 1) (append_subling fails f) r | None => None end
              else every_items inr ev (i + 1) fails r
  end.
(** the loop of Has (h2_matches_container.hpp:156-163) *)
Fixpoint has_items (inr : Z -> bool) (ev : pval -> option fail) (times : Z) (i found : Z) (l : list pval) : option Z :=
  match l with
  | [] => Some found
  | a :: r =>
      if inr i then
        match ev a with
        | Some f => if isnull f then (if times <=? found + 1 then Some (found + 1) else has_items inr ev times (i + 1) (found + 1) r)
                    else has_items inr ev times (i + 1) found r
        | None => None
        end
      else has_items inr ev times (i + 1) found r
  end.

(** matches of every matcher (as cited at the constructors, e.g. h2_matches_pointee.hpp:7-10) *)
Fixpoint pmatches (m : pmatcher) (c : ctx) (v : pval) {struct m} : option fail :=
  match m with
  | PBase q => Some (if fit c (q (c_ci c) (c_sq c) v) then Null else new_fail 1)
  | PPoly f m1 => pmatches m1 (configure f c) v
  | PNot m1 => pmatches m1 (upd_neg c (negb (c_neg c))) v
  | PAnd ml mr =>
      match pmatches ml (upd_neg c false) v, pmatches mr (upd_neg c false) v with
      | Some f1, Some f2 => let fails := append_subling (append_subling Null f1) f2 in Some (conclude c (isnull fails) fails)
      | _, _ => None
      end
  | POr ml mr =>
      match pmatches ml (upd_neg c false) v, pmatches mr (upd_neg c false) v with
      | Some f1, Some f2 => Some (conclude c (isnull f1 || isnull f2) (append_subling (append_subling Null f1) f2))
      | _, _ => None
      end
  | PAllOf l =>
      match (fix go (i : Z) (fails : fail) (l : list pmatcher) : option fail :=
         match l with
         | [] => Some fails
         | m1 :: r => match pmatches m1 (upd_neg c false) v with Some f => go (i + 1) (append_subling fails (set_seqno f i)) r | None => None end
         end) 0 Null l with
      | Some fails => Some (conclude c (isnull fails) fails)
      | None => None
      end
  | PAnyOf l =>
      match (fix go (i : Z) (fails : fail) (l : list pmatcher) : option (bool * fail) :=
         match l with
         | [] => Some (false, fails)
         | m1 :: r => match pmatches m1 (upd_neg c false) v with
                      | Some f => if isnull f then Some (true, fails) else go (i + 1) (append_subling fails (set_seqno f i)) r
                      | None => None
                      end
         end) 0 Null l with
      | Some (found, fails) => Some (conclude c found fails)
      | None => None
      end
  | PPointee m1 => match v with Ptr (Some x) => pmatches m1 (clear_size c) x | _ => None end
  | PMember g m1 => match pointer_if v with Some o => pmatches m1 c (g o) | None => None end
  | PCastOf g m1 => pmatches m1 c (g v)
  | PEvery m1 =>
      match every_items (c_in c) (pmatches m1 (inner c)) 0 Null (items v) with
      | Some fails => Some (conclude c (isnull fails) fails)
      | None => None
      end
  | PHas m1 =>
      match has_items (c_in c) (pmatches m1 (inner c)) (c_times c) 0 0 (items v) with
      | Some found => Some (if fit c (c_times c <=? found) then Null else new_fail 0)
      | None => None
      end
  end.
