(** What an arithmetic expression means: the usual layers of precedence, stated as a grammar over tokens. *)
From Coq Require Import List NArith ZArith Bool Arith.
From Verif Require Import Base ExprModel.
Import ListNotations.
Local Open Scope N_scope.

(** layers, from the tightest: atoms; factorials; a prefix function applied; signs; powers; products; sums; comma lists *)
Inductive level := LAtom | LFac | LPre | LPower | LFactor | LTerm | LExpr | LList.
(** a sign and whether it is a minus *)
Definition is_sign (t : token) : Prop := t = TAdd \/ t = TSub.
Definition minuses (sg : list token) : nat := length (filter (fun t => match t with TSub => true | _ => false end) sg).
(** [derives l ts t]: the tokens, read at layer [l], are the expression [t] *)
Inductive derives : level -> list token -> tree -> Prop :=
| D_number s : derives LAtom [TNum s] (Lit s)
| D_paren ts t : derives LList ts t -> derives LAtom (TOpen :: ts ++ [TClose]) t
| D_const n : derives LAtom [TFun n 0] (App0 n)
| D_const_call n : derives LAtom [TFun n 0; TOpen; TClose] (App0 n)
| D_fun2 n a ta b tb : derives LExpr a ta -> derives LExpr b tb -> derives LAtom (TFun n 2 :: TOpen :: a ++ TComma :: b ++ [TClose]) (App2 n ta tb)
| D_atom ts t : derives LAtom ts t -> derives LFac ts t
| D_factorial ts t : derives LFac ts t -> derives LFac (ts ++ [TFac]) (App1 (str "factorial") t)
| D_fac ts t : derives LFac ts t -> derives LPre ts t
| D_fun1 n ts t : derives LPower ts t -> derives LPre (TFun n 1 :: ts) (App1 n t)
| D_signs sg ts t : Forall is_sign sg -> derives LPre ts t -> derives LPower (sg ++ ts) (if Nat.odd (minuses sg) then App1 (str "negate") t else t)
| D_power ts t : derives LPower ts t -> derives LFactor ts t
| D_pow a ta b tb : derives LFactor a ta -> derives LPower b tb -> derives LFactor (a ++ TPow :: b) (App2 (str "pow") ta tb)
| D_factor ts t : derives LFactor ts t -> derives LTerm ts t
| D_mul o a ta b tb : derives LTerm a ta -> derives LFactor b tb -> derives LTerm (a ++ TMul o :: b) (App2 o ta tb)
| D_term ts t : derives LTerm ts t -> derives LExpr ts t
| D_add a ta b tb : derives LExpr a ta -> derives LTerm b tb -> derives LExpr (a ++ TAdd :: b) (App2 (str "+") ta tb)
| D_sub a ta b tb : derives LExpr a ta -> derives LTerm b tb -> derives LExpr (a ++ TSub :: b) (App2 (str "-") ta tb)
| D_expr ts t : derives LExpr ts t -> derives LList ts t
| D_comma a ta b tb : derives LList a ta -> derives LExpr b tb -> derives LList (a ++ TComma :: b) (App2 (str "comma") ta tb).

(** decimal digits; the exponent and the fraction of a decimal literal *)
Definition digit (c : byte) : Prop := 48 <= c /\ c <= 57.
Definition fraction (s : bytes) : Prop := s = [] \/ exists d, s = 46 :: d /\ Forall digit d.
Definition exp_part (s : bytes) : Prop :=
  s = [] \/ exists m g d, s = m :: g ++ d /\ (m = 101 \/ m = 69) /\ (g = [] \/ g = [43] \/ g = [45]) /\ d <> [] /\ Forall digit d.
(** a decimal literal such as 12, 1.5, .5, 2e-3 *)
Definition decimal (s : bytes) : Prop :=
  exists i f x, s = i ++ f ++ x /\ Forall digit i /\ fraction f /\ exp_part x /\ (i <> [] \/ exists c r, f = 46 :: c :: r).
(** a hexadecimal literal such as 0x1F *)
Definition hex_digit (c : byte) : Prop := digit c \/ (65 <= c /\ c <= 70) \/ (97 <= c /\ c <= 102).
Definition hexadecimal (s : bytes) : Prop := exists x d, s = 48 :: x :: d /\ (x = 120 \/ x = 88) /\ d <> [] /\ Forall hex_digit d.
(** the named functions and constants and their number of parameters *)
Definition named (w : bytes) (k : nat) : Prop :=
  match k with
  | 0%nat => In w [str "pi"; str "e"; str "nan"; str "inf"]
  | 1%nat => In w [str "negate"; str "factorial"; str "abs"; str "sqrt"; str "ln"; str "log"; str "log10"; str "log2"; str "floor"; str "ceil"; str "exp";
                   str "cos"; str "acos"; str "cosh"; str "sin"; str "asin"; str "sinh"; str "tan"; str "atan"; str "tanh"]
  | 2%nat => In w [str "comma"; str "C"; str "P"; str "A"; str "fmod"; str "pow"; str "atan2"]
  | _ => False
  end.
(** the characters of a token *)
Inductive spells : token -> bytes -> Prop :=
| S_num s : decimal s -> spells (TNum s) s
| S_hex s : hexadecimal s -> spells (TNum s) s
| S_fun w k : named w k -> spells (TFun w k) w
| S_add : spells TAdd (str "+") | S_sub : spells TSub (str "-") | S_mul : spells (TMul (str "*")) (str "*") | S_div : spells (TMul (str "/")) (str "/")
| S_mod : spells (TMul (str "fmod")) (str "%") | S_pow : spells TPow (str "^") | S_fac : spells TFac (str "!") | S_open : spells TOpen (str "(")
| S_close : spells TClose (str ")") | S_comma : spells TComma (str ",").
(** spaces and tabs *)
Definition blanks (s : bytes) : Prop := Forall (fun c => c = 32 \/ c = 9) s.
(** letters, digits, underline, point *)
Definition wordy (c : byte) : Prop := (48 <= c /\ c <= 57) \/ (65 <= c /\ c <= 90) \/ (97 <= c /\ c <= 122) \/ c = 95 \/ c = 46.
(** a number or a name ends where no word goes on *)
Definition ends (t : token) (s : bytes) : Prop := match t with TNum _ | TFun _ _ => match s with [] => True | c :: _ => ~ wordy c end | _ => True end.
(** the tokens written with blanks wherever one likes *)
Inductive written : list token -> bytes -> Prop :=
| W_end bl : blanks bl -> written [] bl
| W_token bl t w ts s : blanks bl -> spells t w -> ends t s -> written ts s -> written (t :: ts) (bl ++ w ++ s).

(** an expression over decimal and hexadecimal literals, the named functions and the operators *)
Fixpoint wellformed (t : tree) : Prop :=
  match t with
  | Lit s => decimal s \/ hexadecimal s
  | App0 f => named f 0
  | App1 f a => named f 1 /\ wellformed a
  | App2 f a b => (named f 2 \/ In f [str "+"; str "-"; str "*"; str "/"]) /\ wellformed a /\ wellformed b
  end.
(** integers as a number domain: decimal literals without point, negation, factorial, + - * and powers *)
Definition int_of (s : bytes) : Z := fold_left (fun a c => 10 * a + (Z.of_N c - 48))%Z s 0%Z.
Definition ints : alg := {|
  R := Z; lit := int_of; app0 := fun _ => 0%Z;
  app1 := fun f x => if bytes_eqb f (str "negate") then (- x)%Z else x;
  app2 := fun f x y => if bytes_eqb f (str "+") then (x + y)%Z else if bytes_eqb f (str "-") then (x - y)%Z else if bytes_eqb f (str "*") then (x * y)%Z
                       else if bytes_eqb f (str "pow") then Z.pow x y else y |}.
