(** Model of the helpers of source/matcher/h2_matcher_aux.hpp: the matchers IsEven, IsOdd, IsDivable, IsInteger, IsNaN (15-19), made by H2MATCHER
    (source/matcher/h2_matcher_customize.hpp:1-30), and File (1-13).

    Integers are those of NumModel (LP64).  A floating point number is a rational, an infinity or not a number.  None is undefined behaviour. *)
From Coq Require Import List ZArith NArith QArith Qround Bool.
From Verif Require Import Base NumModel.
Import ListNotations.
Local Open Scope Z_scope.

(** c.fit(result) (source/matcher/h2_matches.hpp:7, used at h2_matcher_customize.hpp:6): does the matcher pass, given its negation? *)
Definition fit (negative result : bool) : bool := Bool.eqb result (negb negative).
(** the operator % on integers (h2_matcher_aux.hpp:15-17): operands are converted to a common type; division by zero and the smallest
    number divided by -1 are undefined *)
Definition remainder (ta : ity) (a : Z) (te : ity) (e : Z) : option Z :=
  let t := common ta te in
  let x := conv t a in let y := conv t e in
  if y =? 0 then None
  else match t with Signed b => if (x =? - 2 ^ (b - 1)) && (y =? -1) then None else Some (Z.rem x y) | _ => Some (Z.rem x y) end.
(** the type of the literal 2 (h2_matcher_aux.hpp:15-16) *)
Definition int_type : ity := Signed 32.
(** IsEven (h2_matcher_aux.hpp:15) *)
Definition is_even (negative : bool) (ta : ity) (a : Z) : option bool := option_map (fun r => fit negative (r =? 0)) (remainder ta a int_type 2).
(** IsOdd (h2_matcher_aux.hpp:16) *)
Definition is_odd (negative : bool) (ta : ity) (a : Z) : option bool := option_map (fun r => fit negative (negb (r =? 0))) (remainder ta a int_type 2).
(** IsDivable(expect) (h2_matcher_aux.hpp:17) *)
Definition is_divable (negative : bool) (te : ity) (e : Z) (ta : ity) (a : Z) : option bool := option_map (fun r => fit negative (r =? 0)) (remainder ta a te e).

(** floating point values (the operands of h2_matcher_aux.hpp:18-19) *)
Inductive real := Finite (q : Q) | Infinite (positive : bool) | NotANumber.
(** ::floor (h2_matcher_aux.hpp:18, C standard: 7.12.9.2, F.10.6.2); the floor of a double is a double *)
Definition floor (x : real) : real := match x with Finite q => Finite (inject_Z (Qfloor q)) | _ => x end.
(** == of floating point values (h2_matcher_aux.hpp:18) *)
Definition equal (x y : real) : bool := match x, y with Finite p, Finite q => Qeq_bool p q | Infinite a, Infinite b => Bool.eqb a b | _, _ => false end.
(** IsInteger (h2_matcher_aux.hpp:18) *)
Definition is_integer (negative : bool) (a : real) : bool := fit negative (equal (floor a) a).
(** std::isnan (h2_matcher_aux.hpp:19) *)
Definition is_nan (negative : bool) (a : real) : bool := fit negative (match a with NotANumber => true | _ => false end).

(** what the system says of a file that can be opened: the place of its end (ftell; negative: it cannot be told) and the bytes that can be
    read (h2_matcher_aux.hpp:3-9) *)
Record file := mkfile { f_end : Z; f_bytes : bytes }.
(** what File gives: a text, or an exception for a length no string can have (h2_matcher_aux.hpp:8) *)
Inductive slurped := Slurped (s : bytes) | Length_error.
(** File(filename) (h2_matcher_aux.hpp:1-13); [limit] is the greatest length of a string *)
Definition slurp (limit : Z) (f : option file) : slurped :=
  match f with
  | None => Slurped []
  | Some f =>
      if (f_end f <? 0) || (limit <? f_end f) then Length_error
      else let l := Z.to_nat (f_end f) in
           let read := firstn l (f_bytes f) in
           Slurped (read ++ repeat 32%N (l - length read))
  end.
