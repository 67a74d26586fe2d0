(** What the lookup of functions is to do (C76): independent of how the code does it. *)
From Coq Require Import List NArith ZArith Bool Arith.
From Verif Require Import Base MemcmpSpec NmModel.
Import ListNotations.
Local Open Scope N_scope.

(** a line of the output of nm *)
Record entry := mkentry { e_addr : bytes; e_type : byte; e_name : bytes }.
Definition printed (e : entry) : bytes := e_addr e ++ [32; e_type e; 32] ++ e_name e ++ [10].
Definition proper (e : entry) : Prop :=
  (1 <= length (e_addr e) <= 16)%nat /\ (exists ds, Forall2 writes (e_addr e) ds) /\ ~ white (e_type e) /\
  match e_name e with [] => False | c :: _ => ~ white c end /\ ~ In 10 (e_name e) /\ (length (printed e) <= 2046)%nat.
(** the kinds of symbols that are data or have no place of their own *)
Definition data (e : entry) : Prop := In (e_type e) (str "bBcCdDiIuU").
(** [r] are the elements of [l] with a property, in their order *)
Inductive picks {A} (P : A -> Prop) : list A -> list A -> Prop :=
| pick_none : picks P [] []
| pick_it x l r : P x -> picks P l r -> picks P (x :: l) (x :: r)
| pick_not x l r : ~ P x -> picks P l r -> picks P (x :: l) r.
(** the symbol recorded for a line: its first 127 characters and the address *)
Definition recorded (e : entry) (p : symbol) : Prop :=
  sym p = firstn 127 (e_name e) /\ forall ds, Forall2 writes (e_addr e) ds -> at_ p = Z.to_N (number 16 ds).

(** the name of a symbol, without the underscore some systems put before each *)
Definition shown (lu : bool) (p : symbol) : bytes := match lu, sym p with true, 95 :: r => r | _, s => s end.
(** the first symbol of a name *)
Definition first_named (lu : bool) (n : bytes) (l : list symbol) (p : symbol) : Prop :=
  exists before after, l = before ++ p :: after /\ shown lu p = n /\ Forall (fun q => shown lu q <> n) before.
(** a function of a name: n(...) or scope::n(...), nothing before the parenthesis being in parentheses *)
Definition called (n s : bytes) : Prop :=
  ~ In 40 n /\ exists rest, s = n ++ 40 :: rest \/ exists scope, ~ In 40 scope /\ s = scope ++ [58; 58] ++ n ++ 40 :: rest.
(** no name begins with a colon *)
Definition sound (lu : bool) (l : list symbol) : Prop := forall p, In p l -> match shown lu p with 58 :: _ => False | _ => True end.
(** the program is loaded [d] bytes above the addresses of its symbols *)
Definition loaded (lu : bool) (l : list symbol) (main d : N) : Prop :=
  main < 2 ^ 64 /\ exists p, first_named lu (str "main") l p /\ main = (at_ p + d) mod 2 ^ 64.
Definition place (d : N) (p : symbol) : N := (at_ p + d) mod 2 ^ 64.
