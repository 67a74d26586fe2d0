(** Model of the matchers of numbers: Equals on integers and bool (source/matcher/h2_matches_equation.hpp:117-147, 165-172,
    source/matcher/h2_matches.hpp:62-71, source/utils/h2_numberfy.hpp:1-32), Ge, Gt, Le, Lt (source/matcher/h2_matches_inequation.hpp:1-78),
    the conversion of a plain value to a matcher (source/matcher/h2_matcher_cast.hpp:1-21, h2_matcher.cpp:4-5), the assertions
    OK(e, a) and OK(l op r) (source/assert/h2_assert.hpp:27-77), the tolerance of floating point equality
    (h2_matches_equation.hpp:92-137) and Range (source/matcher/h2_matches_range.hpp:8-26).

    Integers are given by a type and a mathematical value in its range; the types are those of LP64 (bool, 8 to 64 bits, signed
    and unsigned), conversion to a signed type wraps.  Floating point numbers are exact rationals: rounding, infinities and NaN
    are not modelled.  Only the verdict is modelled (the failure's text is not), without negation (C29). *)
From Coq Require Import List ZArith QArith Qabs Qround Bool.
Import ListNotations.
Local Open Scope Z_scope.

(** ** integers *)
(** integer types (the E and A of h2_matches_equation.hpp:140; LP64) *)
Inductive ity := Boolean | Signed (bits : Z) | Unsigned (bits : Z).
(** the types there are (LP64) (h2_matches_equation.hpp:140) *)
Definition valid (t : ity) : bool :=
  match t with Boolean => true | Signed b | Unsigned b => (b =? 8) || (b =? 16) || (b =? 32) || (b =? 64) end.
(** is the value one of the type (h2_matches_equation.hpp:140) *)
Definition in_type (t : ity) (v : Z) : bool :=
  match t with
  | Boolean => (v =? 0) || (v =? 1)
  | Signed b => (- 2 ^ (b - 1) <=? v) && (v <? 2 ^ (b - 1))
  | Unsigned b => (0 <=? v) && (v <? 2 ^ b)
  end.
(** conversion to a type (h2_matcher.hpp:13, the converting constructor's parameter; C++ integral conversions) *)
Definition conv (t : ity) (v : Z) : Z :=
  match t with
  | Boolean => if v =? 0 then 0 else 1
  | Signed b => (v + 2 ^ (b - 1)) mod 2 ^ b - 2 ^ (b - 1)
  | Unsigned b => v mod 2 ^ b
  end.
(** integral promotion (of the operands of >=, h2_matches_inequation.hpp:9) *)
Definition promote (t : ity) : ity :=
  match t with Boolean => Signed 32 | Signed b => if b <? 32 then Signed 32 else t | Unsigned b => if b <? 32 then Signed 32 else t end.
(** usual arithmetic conversions after promotion (h2_matches_inequation.hpp:9, 26, 43, 60) *)
Definition common (x y : ity) : ity :=
  match promote x, promote y with
  | Signed a, Signed b => Signed (Z.max a b)
  | Unsigned a, Unsigned b => Unsigned (Z.max a b)
  | Signed a, Unsigned b => if a <=? b then Unsigned b else Signed a
  | Unsigned a, Signed b => if b <=? a then Unsigned a else Signed b
  | Boolean, t | t, Boolean => t
  end.
(** comparison operators (h2_matches_inequation.hpp:9, 26, 43, 60) *)
Inductive cmp := CGe | CGt | CLe | CLt.
(** the operator on converted operands (h2_matches_inequation.hpp:9, 26, 43, 60) *)
Definition compare (op : cmp) (x y : Z) : bool := match op with CGe => y <=? x | CGt => y <? x | CLe => x <=? y | CLt => x <? y end.
(** Ge(e), Gt(e), Le(e), Lt(e) against a (h2_matches_inequation.hpp:6-66) *)
Definition ord_match (op : cmp) (te : ity) (e : Z) (ta : ity) (a : Z) : bool :=
  let t := common ta te in compare op (conv t a) (conv t e).
(** h2_numberfy<uintptr_t> of an integer (h2_numberfy.hpp:1-4, 30-31) *)
Definition numberfy (v : Z) : Z := v mod 2 ^ 64.
(** Equals(e) against a: h2_matches_bool for bool (h2_matches.hpp:65-71, h2_matches_equation.hpp:171-172), otherwise
    h2_equation's integers (h2_matches_equation.hpp:139-147, 165-166) *)
Definition eq_match (te : ity) (e : Z) (ta : ity) (a : Z) : bool :=
  match te with
  | Boolean => if e =? 0 then a =? 0 else negb (a =? 0)
  | _ => numberfy e =? numberfy a
  end.
(** h2_matcher_cast<A>(e).matches(a) for a plain value e (h2_matcher_cast.hpp:3-15, h2_matcher.cpp:4-5): a bool stays as it
    is, everything else becomes the type of a first *)
Definition cast_match (te : ity) (e : Z) (ta : ity) (a : Z) : bool :=
  match te with Boolean => eq_match te e ta a | _ => eq_match ta (conv ta e) ta a end.
(** OK(e, a) with a plain value e (h2_assert.hpp:27-32) *)
Definition ok2 (te : ity) (e : Z) (ta : ity) (a : Z) : bool := cast_match te e ta a.
(** the operators of OK(l op r) (h2_assert.hpp:53-64) *)
Inductive op1 := OEq | ONe | OGt | OLt | OGe | OLe.
(** OK(l op r) (h2_assert.hpp:49-77, h2_matches_inequation.hpp:69-78, h2_matches_logic.hpp:6-10) *)
Definition ok1 (op : op1) (tl : ity) (l : Z) (tr : ity) (r : Z) : bool :=
  match op with
  | OEq => eq_match tl l tr r
  | ONe => negb (cast_match tl l tr r)
  | OGt => ord_match CLt tl l tr r
  | OLt => ord_match CGt tl l tr r
  | OGe => ord_match CLe tl l tr r
  | OLe => ord_match CGe tl l tr r
  end.

(** ** floating point equality *)
(** h2_approximate::A (h2_matches_equation.hpp:93) *)
Definition apx_A : Z := 100000000000000.
(** h2_approximate::B (h2_matches_equation.hpp:94) *)
Definition apx_B : Z := 1000000000000000000.
(** h2_approximate::operator* (h2_matches_equation.hpp:96-99); None = beyond unsigned long long, undefined *)
Definition scaled (epsilon : Q) : option Z :=
  let n := Qfloor (Qabs epsilon * inject_Z apx_A) in if n <? 2 ^ 64 then Some n else None.
(** what Eq(x, epsilon) gives its tolerance as: [scaled + B], and with a percent sign, [scaled % +B] (h2_matches_equation.hpp:174-176),
    in unsigned long long *)
Definition eps_code (percent : bool) (n : Z) : Z := if percent then n mod apx_B else (n + apx_B) mod 2 ^ 64.
(** is_scale (h2_matches_equation.hpp:101-105) *)
Definition is_scale (code : Z) : bool := negb (code =? 0) && (code <? apx_B).
(** absolute_margin (h2_matches_equation.hpp:106-110) *)
Definition absolute_margin (code : Z) : Q := if code =? 0 then 1 # 100000 else (inject_Z (code - apx_B) / inject_Z apx_A)%Q.
(** percentage_scale (h2_matches_equation.hpp:111-114) *)
Definition percentage_scale (code : Z) : Q := ((inject_Z code / inject_Z apx_A) / inject_Z 100)%Q.
(** h2_equation::matches with a floating point operand (h2_matches_equation.hpp:123-137) *)
Definition approx (e : Q) (code : Z) (a : Q) : bool :=
  if is_scale code then Qle_bool (Qabs (a - e)) (Qabs (e * percentage_scale code)) else Qle_bool (Qabs (a - e)) (Qabs (absolute_margin code)).
(** the tolerance as written: none, a number, a number of percent (h2_matches_equation.hpp:174-176) *)
Inductive tolerance := Default | Absolute (t : Q) | Percent (t : Q).
(** Eq(e), Eq(e, t), Eq(e, t%) against a (h2_matches_equation.hpp:165-166, 174-176); None = undefined *)
Definition eq_float (e : Q) (t : tolerance) (a : Q) : option bool :=
  match t with
  | Default => Some (approx e 0 a)
  | Absolute x => option_map (fun n => approx e (eps_code false n) a) (scaled x)
  | Percent x => option_map (fun n => approx e (eps_code true n) a) (scaled x)
  end.

(** ** Range *)
(** the default argument (h2_matches_range.hpp:10) *)
Definition omitted : Q := - (15048889911 # 100000000000).
(** the loop (h2_matches_range.hpp:19-23); None = still looping *)
Fixpoint range_loop (fuel : nat) (i end_ step a : Q) : option bool :=
  match fuel with
  | O => None
  | S f => if negb (Qle_bool end_ i) then (if Qle_bool (Qabs (a - i)) (Qabs (absolute_margin 0)) then Some true else range_loop f (i + step) end_ step a) else Some false
  end.
(** h2_range_matches::matches (h2_matches_range.hpp:12-26) *)
Definition range_match (fuel : nat) (start end_ step a : Q) : option bool :=
  let s := if Qeq_bool end_ omitted then 0%Q else start in
  let n := if Qeq_bool end_ omitted then start else end_ in
  let st := if Qeq_bool step omitted then 1%Q else step in
  range_loop fuel s n st a.
