(** What the list macros are for: texts made of values, and the calls and cases they become. *)
From Coq Require Import List NArith Bool Arith DecimalString.
From Verif Require Import Base MacroModel.
Import ListNotations.
Local Open Scope N_scope.

(** a name that h2unit does not define as a macro *)
Definition foreign (n : bytes) : Prop := ~ In n (map fst defined).
(** tokens that are no parentheses and no commas *)
Definition word (t : tok) : Prop := match t with TId n b => b = false /\ foreign n | TNum _ | TOther _ => True | _ => False end.
(** texts with balanced parentheses *)
Inductive text : list tok -> Prop :=
| text_nil : text []
| text_word : forall t r, word t -> text r -> text (t :: r)
| text_comma : forall r, text r -> text (TComma :: r)
| text_group : forall a r, text a -> text r -> text (TLp :: a ++ TRp :: r).
(** ... and with no comma outside of them *)
Inductive piece : list tok -> Prop :=
| piece_nil : piece []
| piece_word : forall t r, word t -> piece r -> piece (t :: r)
| piece_group : forall a r, text a -> piece r -> piece (TLp :: a ++ TRp :: r).
Definition value (v : list tok) : Prop := piece v /\ v <> [].
Definition plain (v : list tok) : Prop := value v /\ hd_error v <> Some TLp.
Definition argument (a : list tok) : Prop := a = [] \/ value a.

(** texts separated by commas *)
Fixpoint listed (vs : list (list tok)) : list tok :=
  match vs with [] => [] | [v] => v | v :: r => v ++ TComma :: listed r end.
Definition group (ts : list tok) : list tok := TLp :: ts ++ [TRp].
Definition name (s : bytes) : tok := TId s false.
Definition applied (f : list tok) (args : list (list tok)) : list tok := f ++ group (listed args).
Definition macro_use (m : bytes) (args : list (list tok)) : list tok := applied [name m] args.
Definition decimal (n : nat) : bytes := str (NilEmpty.string_of_uint (Nat.to_uint n)).
Definition numeral (n : nat) : tok := TNum (decimal n).

(** a separator as it is written, and what is put between calls *)
Inductive separates : list tok -> list tok -> Prop :=
| sep_none : separates [] []
| sep_plain : forall s, plain s -> separates s s
| sep_group : forall p, text p -> separates (group p) p.
Definition joined (between : list tok) (l : list (list tok)) : list tok :=
  match l with [] => [] | a :: r => a ++ flat_map (fun x => between ++ x) r end.
Definition numbered {A} (l : list A) : list (nat * A) := combine (seq 0 (length l)) l.
(** all pairs, row by row *)
Definition pairs {A} (xs ys : list A) : list ((nat * A) * (nat * A)) :=
  flat_map (fun x => map (fun y => (x, y)) (numbered ys)) (numbered xs).

(** one text becomes another, in any text around it that uses no macro of h2unit *)
Definition harmless (t : tok) : Prop := word t \/ t = TLp \/ t = TRp \/ t = TComma.
Definition becomes (s s' : list tok) : Prop :=
  forall before after, Forall harmless before -> Forall harmless after ->
  exists f, forall fuel, (f <= fuel)%nat -> preprocess fuel (before ++ s ++ after) = Some (before ++ s' ++ after).

(** the case that a value of a list of values becomes, and the function all of them call *)
Definition punct (c : N) : tok := TOther [c].
Definition case_of (test prefix numbers : list tok) (vs : list (list tok)) (types : bool) : list tok :=
  applied [name (str "H2CASE")] [prefix ++ numbers ++ listed vs] ++
  punct 123 :: (if types then test ++ punct 60 :: listed vs ++ punct 62 :: group [] else test ++ group (listed vs)) ++ [punct 59; punct 125].
Definition dotted (n : nat) : list tok := [numeral n; punct 46].
Definition words (s : bytes) : list tok := lex [] s.
Definition template (head : bytes) (test : list tok) (params : bytes) : list tok := words head ++ test ++ words params.
