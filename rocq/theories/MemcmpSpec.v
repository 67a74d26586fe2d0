(** Bits of buffers and values of digit strings. *)
From Coq Require Import List NArith ZArith Bool Arith.
From Verif Require Import Base FilterModel MemcmpModel.
Import ListNotations.
Local Open Scope N_scope.

(** bit n of a buffer of bytes, most significant bit of the first byte first *)
Definition bit (b : list N) (n : nat) : bool := N.testbit (nth (n / 8) b 0) (N.of_nat (7 - n mod 8)).
(** the first k bits agree *)
Definition same_bits (a b : list N) (k : nat) : Prop := forall n, (n < k)%nat -> bit a n = bit b n.
(** number written with the digits, most significant first *)
Definition number (base : Z) (digits : list Z) : Z := fold_left (fun a d => (a * base + d)%Z) digits 0%Z.
(** a buffer starts with the bytes p *)
Definition begins (p a : list N) : Prop := firstn (length p) a = p.
(** the bits a binary literal denotes: spaces separate *)
Definition denoted (s : bytes) : list bool := map (fun c => c =? 49) (filter (fun c => negb (c =? 32)) s).
(** the character c is the hexadecimal digit of value d *)
Definition writes (c : byte) (d : Z) : Prop := exists n, d = Z.of_nat n /\ (nth_error (str "0123456789abcdef") n = Some c \/ nth_error (str "0123456789ABCDEF") n = Some c).
(** white space: blank, tab, newline, vertical tab, form feed, carriage return *)
Definition white (c : byte) : Prop := In c [32; 9; 10; 11; 12; 13].
(** literals taken for binary: 0, 1 and white space; for hexadecimal: starting with 0x or 0X, or digits and white space *)
Definition binlike (s : bytes) : Prop := Forall (fun c => c = 48 \/ c = 49 \/ white c) s.
Definition hexlike (s : bytes) : Prop := (exists r, s = str "0x" ++ r \/ s = str "0X" ++ r) \/ Forall (fun c => (exists d, writes c d) \/ white c) s.
(** s starts with these digits, and no digit follows *)
Definition leading (s : bytes) (ds : list Z) : Prop := exists run rest, s = run ++ rest /\ Forall2 writes run ds /\ match rest with [] => True | c :: _ => forall d, ~ writes c d end.
(** literals of 0, 1 and blanks *)
Definition bin_digits (s : bytes) : Prop := Forall (fun c => c = 48 \/ c = 49 \/ c = 32) s.
(** the outcome is defined, and a match exactly when P (not P under negation) *)
Definition decides (o : option verdict) (neg : bool) (P : Prop) : Prop := o <> None /\ (o = Some Match <-> if neg then ~ P else P).
(** the first k bytes of a memory are defined and are those of b *)
Definition agrees (m : mem) (b : list N) (k : nat) : Prop := forall i, (i < k)%nat -> get m i = Some (nth i b 0).
