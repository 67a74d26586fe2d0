(** Model of matchers: h2_polymorphic_matcher (source/matcher/h2_matcher.hpp:22-71), the context C
    (source/matcher/h2_matches.hpp:1-22), the logical combinators (source/matcher/h2_matches_logic.hpp), CaseLess and
    SpaceLess (source/matcher/h2_matches_strcmp.hpp:40-56), Pointee and CastOf pass-through, and the container matchers
    (source/matcher/h2_matches_container.hpp).

    A base matcher (Any, NULL, true, Eq, Ge, Se, We, customised …: all of the shape [if (c.fit(result)) return nullptr;
    return h2_fail::new_…]) is an arbitrary predicate of the value and the two string flags.  Texts of failures are not
    modelled (a label stands for them); int counters and products are unbounded; AvgOf (floating point) is not modelled;
    MedianOf (on integers) is at the end. *)
From Coq Require Import List ZArith NArith Bool.
From Verif Require Import FailModel.
Import ListNotations.
Local Open Scope Z_scope.

(** values: numbers, strings, pairs, sequence containers, maps (in iteration order) (the argument of matches, h2_matches_container.hpp:1-338 and the other files of source/matcher) *)
Inductive val := VNum (z : Z) | VStr (s : list N) | VPair (a b : val) | VSeq (l : list val) | VMap (l : list (val * val)).
(** iteration over a container (a map gives pairs); other values do not compile, [] here (the loops of h2_matches_container.hpp:1-300) *)
Definition elems (v : val) : list val := match v with VSeq l => l | VMap l => map (fun kv => VPair (fst kv) (snd kv)) l | _ => [] end.
(** the context C (h2_matches.hpp:1-4); dimension and no_compare_operator do not influence verdicts on these values *)
Record ctx := mkctx { c_neg : bool; c_ci : bool; c_sq : bool; c_rs : Z; c_re : Z; c_times : Z }.
(** the default end of ranges (h2_matches.hpp:4, h2_matches_container.hpp:312) *)
Definition range_max : Z := 5413722.
(** C's default constructor (h2_matches.hpp:4) *)
Definition ctx0 : ctx := mkctx false false false 0 range_max 1.
(** C::in, fit, clear_size, update_negative, update_caseless, update_spaceless (h2_matches.hpp:6-11) *)
Definition c_in (c : ctx) (i : Z) : bool := (c_rs c <=? i) && (i <? c_re c).
(** C::fit (h2_matches.hpp:7) *)
Definition fit (c : ctx) (r : bool) : bool := eqb r (negb (c_neg c)).
(** C::clear_size (h2_matches.hpp:8) *)
Definition clear_size (c : ctx) : ctx := mkctx (c_neg c) (c_ci c) (c_sq c) 0 range_max (c_times c).
(** C::update_negative (h2_matches.hpp:9) *)
Definition upd_neg (c : ctx) (b : bool) : ctx := mkctx b (c_ci c) (c_sq c) (c_rs c) (c_re c) (c_times c).
(** C::update_caseless (h2_matches.hpp:10) *)
Definition upd_ci (c : ctx) (b : bool) : ctx := mkctx (c_neg c) b (c_sq c) (c_rs c) (c_re c) (c_times c).
(** C::update_spaceless (h2_matches.hpp:11) *)
Definition upd_sq (c : ctx) (b : bool) : ctx := mkctx (c_neg c) (c_ci c) b (c_rs c) (c_re c) (c_times c).
(** the context for the inner matcher of a container (h2_matches_container.hpp:108 and others) *)
Definition inner (c : ctx) : ctx := upd_neg (clear_size c) false.

(** fields of h2_polymorphic_matcher (h2_matcher.hpp:26-27) *)
Record flags := mkflags { f_rs : Z; f_re : Z; f_times : Z; f_neg : bool; f_ci : bool; f_sq : bool }.
(** initial values (h2_matcher.hpp:26-27) *)
Definition flags0 : flags := mkflags (-1) (-1) 1 false false false.
(** operators on a polymorphic matcher: ! ~ * , * n, (start, end), / end (h2_matcher.hpp:29-59) *)
Inductive oper := OpNot | OpCaseless | OpSquash | OpTimes (n : Z) | OpRange (s e : Z) | OpEnd (e : Z).
(** one operator (h2_matcher.hpp:29-59) *)
Definition apply_op (f : flags) (o : oper) : flags :=
  match o with
  | OpNot => mkflags (f_rs f) (f_re f) (f_times f) (negb (f_neg f)) (f_ci f) (f_sq f)
  | OpCaseless => mkflags (f_rs f) (f_re f) (f_times f) (f_neg f) true (f_sq f)
  | OpSquash => mkflags (f_rs f) (f_re f) (f_times f) (f_neg f) (f_ci f) true
  | OpTimes n => mkflags (f_rs f) (f_re f) n (f_neg f) (f_ci f) (f_sq f)
  | OpRange s e => if e =? -1 then mkflags 0 s (f_times f) (f_neg f) (f_ci f) (f_sq f) else mkflags s e (f_times f) (f_neg f) (f_ci f) (f_sq f)
  | OpEnd e => mkflags 0 e (f_times f) (f_neg f) (f_ci f) (f_sq f)
  end.
(** H2_MATCHES_CONFIGURE (h2_matcher.hpp:60) *)
Definition configure (f : flags) (c : ctx) : ctx :=
  let own := negb (f_rs f =? -1) && negb (f_re f =? -1) in
  mkctx (xorb (f_neg f) (c_neg c)) (f_ci f || c_ci c) (f_sq f || c_sq c) (if own then f_rs f else c_rs c) (if own then f_re f else c_re c) (c_times c * f_times f).

(** h2_range<Start, End> (source/matcher/h2_matches_range.hpp:1-6) *)
Record range := mkrange { r_start : Z; r_end : Z }.
(** the template arguments Start, End (h2_matches_range.hpp:3-4) *)
Definition range_of (s e : Z) : range := if e =? -1 then mkrange 0 s else mkrange s e.
(** h2_range::in (h2_matches_range.hpp:5) *)
Definition r_in (r : range) (i : Z) : bool := (r_start r <=? i) && (i <? r_end r).

(** matcher expressions (source/matcher, cited in each line, e.g. h2_matches_logic.hpp:1-102) *)
Inductive matcher :=
| MPoly (f : flags) (m : matcher)                                  (* h2_matcher.hpp:61-70 *)
| MBase (p : bool -> bool -> val -> bool)                          (* see above *)
| MNot (m : matcher)                                               (* h2_matches_logic.hpp:1-15 *)
| MCond (b : bool) (mt mf : matcher)                               (* 17-33 *)
| MAnd (ml mr : matcher)                                           (* 35-66 *)
| MOr (ml mr : matcher)                                            (* 68-102 *)
| MAllOf (l : list matcher)                                        (* 104-135 *)
| MAnyOf (l : list matcher)                                        (* 137-173 *)
| MNoneOf (l : list matcher)                                       (* 175-209 *)
| MCaseLess (m : matcher)                                          (* h2_matches_strcmp.hpp:40-47 *)
| MSpaceLess (m : matcher)                                         (* h2_matches_strcmp.hpp:49-56 *)
| MPair (k v : matcher)                                            (* h2_matches_container.hpp:26-55 *)
| MEvery (r : range) (m : matcher)                                 (* 96-120 *)
| MHas (r : range) (m : matcher)                                   (* 133-172 *)
| MListOf (r : range) (l : list matcher)                           (* 191-230 *)
| MCountOf (m : matcher)                                           (* 232-245 *)
| MMaxMin (is_max : bool) (r : range) (m : matcher).               (* 247-266 *)

(** h2_is_polymorphic_matcher_pair_matches (h2_matches_container.hpp:62-65) *)
Definition is_pair_matcher (m : matcher) : bool := match m with MPoly _ (MPair _ _) => true | _ => false end.
(** what Has looks at: keys of a map unless given a pair matcher (h2_matches_container.hpp:138-166) *)
Definition has_target (v : val) (m : matcher) (e : val) : val :=
  match v, e with VMap _, VPair k _ => if is_pair_matcher m then e else k | _, _ => e end.
(** the common end of the combinators: fails holds the inner failures (h2_matches_logic.hpp:47-53 and others) *)
Definition conclude (c : ctx) (ok : bool) (fails : fail) : fail :=
  if fit c ok then Null else append_child (new_fail 0) fails.
(** range_in (h2_matches_container.hpp:85) *)
Definition range_in (c : ctx) (r : range) (i : Z) : bool := c_in c i && r_in r i.
(** the loop of Every (h2_matches_container.hpp:104-110); [ev] = the inner match *)
Fixpoint every_loop (inr : Z -> bool) (ev : val -> fail) (i : Z) (fails : fail) (l : list val) : fail :=
  match l with
  | [] => fails
  | a :: r => every_loop inr ev (i + 1) (if inr i then append_subling fails (ev a) else fails) r
  end.
(** the loop of Has (h2_matches_container.hpp:141-148, 156-163) *)
Fixpoint has_loop (inr : Z -> bool) (ev : val -> fail) (times : Z) (i found : Z) (l : list val) : Z :=
  match l with
  | [] => found
  | a :: r => if inr i && isnull (ev a)
              then (if times <=? found + 1 then found + 1 else has_loop inr ev times (i + 1) (found + 1) r)
              else has_loop inr ev times (i + 1) found r
  end.
(** ia > value, ia < value on numbers (h2_matches_container.hpp:261) *)
Definition better (is_max : bool) (a b : val) : bool :=
  match a, b with VNum x, VNum y => if is_max then y <? x else x <? y | _, _ => false end.
(** the loop of MaxOf and MinOf (h2_matches_container.hpp:256-262): count and value *)
Fixpoint maxmin_loop (is_max : bool) (inr : Z -> bool) (i : Z) (best : option val) (l : list val) : option val :=
  match l with
  | [] => best
  | a :: r => maxmin_loop is_max inr (i + 1)
                (if inr i then match best with None => Some a | Some b => if better is_max a b then Some a else Some b end else best) r
  end.
(** H2_MATCHES_STATS (h2_matches_container.hpp:87-94) *)
Definition stats (c : ctx) (value : option val) (ev : val -> fail) : fail :=
  let result := match value with Some v => isnull (ev v) | None => false end in
  if fit c result then Null else new_fail 0.

(** matches of every matcher (source/matcher, as cited at the constructors and e.g. h2_matches_logic.hpp:1-102) *)
Fixpoint matches (m : matcher) (c : ctx) (v : val) {struct m} : fail :=
  match m with
  | MPoly f m1 => matches m1 (configure f c) v
  | MBase p => if fit c (p (c_ci c) (c_sq c) v) then Null else new_fail 1
  | MNot m1 => matches m1 (upd_neg c (negb (c_neg c))) v
  | MCond b mt mf => if b then matches mt c v else matches mf c v
  | MAnd ml mr =>
      let fails := append_subling (append_subling Null (matches ml (upd_neg c false) v)) (matches mr (upd_neg c false) v) in
      conclude c (isnull fails) fails
  | MOr ml mr =>
      let f1 := matches ml (upd_neg c false) v in
      let f2 := matches mr (upd_neg c false) v in
      conclude c (isnull f1 || isnull f2) (append_subling (append_subling Null f1) f2)
  | MAllOf l =>
      let fails := (fix go (i : Z) (fails : fail) (l : list matcher) : fail :=
         match l with
         | [] => fails
         | m1 :: r => go (i + 1) (append_subling fails (set_seqno (matches m1 (upd_neg c false) v) i)) r
         end) 0 Null l in
      conclude c (isnull fails) fails
  | MAnyOf l =>
      let '(found, fails) := (fix go (i : Z) (fails : fail) (l : list matcher) : bool * fail :=
         match l with
         | [] => (false, fails)
         | m1 :: r => let f := matches m1 (upd_neg c false) v in
                      if isnull f then (true, fails) else go (i + 1) (append_subling fails (set_seqno f i)) r
         end) 0 Null l in
      conclude c found fails
  | MNoneOf l =>
      let fails := (fix go (i : Z) (fails : fail) (l : list matcher) : fail :=
         match l with
         | [] => fails
         | m1 :: r => let f := matches m1 (upd_neg c false) v in
                      go (i + 1) (if isnull f then append_subling fails (set_seqno (new_fail 4) i) else fails) r
         end) 0 Null l in
      conclude c (isnull fails) fails
  | MCaseLess m1 => matches m1 (upd_ci c true) v
  | MSpaceLess m1 => matches m1 (upd_sq c true) v
  | MPair mk mv =>
      match v with
      | VPair a b =>
          let fails := append_subling (append_subling Null (matches mk (inner c) a)) (matches mv (inner c) b) in
          conclude c (isnull fails) fails
      | _ => new_fail 0
      end
  | MEvery r m1 =>
      let fails := every_loop (range_in c r) (fun a => matches m1 (inner c) a) 0 Null (elems v) in
      conclude c (isnull fails) fails
  | MHas r m1 =>
      let found := has_loop (range_in c r) (fun a => matches m1 (inner c) (has_target v m1 a)) (c_times c) 0 0 (elems v) in
      if fit c (c_times c <=? found) then Null else new_fail 0
  | MListOf r l =>
      let start := if r_start r <? c_rs c then c_rs c else r_start r in
      let fails := (fix go (i : Z) (fails : fail) (l : list matcher) : fail :=
         match l with
         | [] => fails
         | m1 :: r1 =>
             let f := match (if 0 <=? i + start then nth_error (elems v) (Z.to_nat (i + start)) else None) with
                      | Some a => matches m1 (inner c) a
                      | None => new_fail 5
                      end in
             go (i + 1) (append_subling fails (set_seqno f i)) r1
         end) 0 Null l in
      conclude c (isnull fails) fails
  | MCountOf m1 => stats c (Some (VNum (Z.of_nat (length (elems v))))) (fun a => matches m1 (inner c) a)
  | MMaxMin is_max r m1 => stats c (maxmin_loop is_max (range_in c r) 0 None (elems v)) (fun a => matches m1 (inner c) a)
  end.

(** the matcher _ (source/matcher/h2_matches.hpp:28-39; any value) *)
Definition any_value : matcher := MPoly flags0 (MBase (fun _ _ _ => true)).
(** the template arguments of Every, Has, ListOf, MaxOf, MinOf when none are written: Rs = 5413722, Re = -1
    (h2_matches_container.hpp:312-338) *)
Definition default_range : range := range_of 5413722 (-1).
(** Has(k, v), HasKey(k), HasValue(v): h2_has2_matches (h2_matches_container.hpp:174-189, 314-319) *)
Definition has2 (k v : matcher) : matcher := MHas (mkrange 0 range_max) (MPoly flags0 (MPair k v)).
(** HasKey (h2_matches_container.hpp:316-317) *)
Definition has_key (k : matcher) : matcher := has2 k any_value.
(** HasValue (h2_matches_container.hpp:318-319) *)
Definition has_value (v : matcher) : matcher := has2 any_value v.

(** native arrays and pointers: the elements handed on (h2_matches_container.hpp:73-77), from the memory available behind
    the pointer; None = beyond it.  dimension -1: unknown *)
Definition native (dimension : Z) (c : ctx) (r : range) (mem : list val) : option (list val) :=
  let n := if dimension =? -1 then Z.min (c_re c - c_rs c) (r_end r - r_start r) else dimension in
  if (0 <=? n) && (n <=? Z.of_nat (length mem)) then Some (firstn (Z.to_nat n) mem) else None.

(** h2_median_matches (h2_matches_container.hpp:285-307) on integers: the insertion (297-301) *)
Fixpoint insert (x : Z) (b : list Z) : list Z :=
  match b with [] => [x] | y :: r => if x <? y then x :: b else y :: insert x r end.
(** the selected elements, sorted (h2_matches_container.hpp:293-301) *)
Fixpoint median_loop (inr : Z -> bool) (i : Z) (b : list Z) (l : list Z) : list Z :=
  match l with [] => b | a :: r => median_loop inr (i + 1) (if inr i then insert a b else b) r end.
(** the value (302-303): None = no element; Some None = read past the end; the sum is divided as integers *)
Definition median (inr : Z -> bool) (l : list Z) : option (option Z) :=
  let b := median_loop inr 0 [] l in
  let n := length b in
  match b with
  | [] => None
  | _ => Some (if Nat.odd n then nth_error b (n / 2)
               else match nth_error b (n / 2), nth_error b (n / 2 + 1) with
                    | Some x, Some y => Some (Z.quot (x + y) 2)
                    | _, _ => None
                    end)
  end.
