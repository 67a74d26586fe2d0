(** What the program under test and the checks of H2SOCK see of a run. *)
From Coq Require Import List NArith ZArith Bool Arith.
From Verif Require Import Base GlobSpec SockModel.
Import ListNotations.
Local Open Scope N_scope.

(** the descriptors connected and accepted so far, oldest first, given those before the run *)
Fixpoint links (before : list (Z * (bytes * bytes))) (l : list (op * res)) : list (Z * (bytes * bytes)) :=
  match l with
  | [] => before
  | (Connect fd loc _ dest, _) :: r => links (before ++ [(fd, (loc, dest))]) r
  | (Accept loc _ _, Opened fd p) :: r => links (before ++ [(fd, (loc, p_from p))]) r
  | _ :: r => links before r
  end.
(** the first link of a descriptor, if any *)
Definition first_link (l : list (Z * (bytes * bytes))) (fd : Z) (a : bytes * bytes) : Prop :=
  (exists b c, l = b ++ (fd, a) :: c /\ forall x, In x b -> fst x <> fd) \/ ((forall x, In x l -> fst x <> fd) /\ a = ([], [])).
(** what is sent in a run, in order: (from, (to, data)) *)
Inductive sends : list (Z * (bytes * bytes)) -> list (op * res) -> list (bytes * (bytes * bytes)) -> Prop :=
| Sd_nil k : sends k [] []
| Sd_send k fd data r l x a : first_link k fd a -> sends k l x -> sends k ((Send fd data, r) :: l) ((fst a, (snd a, data)) :: x)
| Sd_sendto k loc dest data r l x : sends k l x -> sends k ((Sendto loc dest data, r) :: l) ((loc, (dest, data)) :: x)
| Sd_other k o r l x : (forall fd data, o <> Send fd data) -> (forall loc dest data, o <> Sendto loc dest data) -> sends (links k [(o, r)]) l x -> sends k ((o, r) :: l) x.
(** what is fetched by Ptx, in order *)
Definition fetched (l : list (op * res)) : list packet := flat_map (fun x => match snd x with Fetched (Some p) => [p] | _ => [] end) l.
(** what is received, in order *)
Definition received (l : list (op * res)) : list packet := flat_map (fun x => match snd x with Got p => [p] | _ => [] end) l.
(** what is received by sockets of the local address [loc], in order *)
Definition received_at (loc : bytes) (l : list (op * res)) : list packet :=
  flat_map (fun x => match fst x, snd x with Recv a _ _, Got p | Recvfrom a _ _, Got p => if list_eq_dec N.eq_dec a loc then [p] else [] | _, _ => [] end) l.
(** packets without data that opened a connection: these are used up *)
Definition openers (l : list (op * res)) : list packet := flat_map (fun x => match snd x with Opened _ p | Linked p => match p_data p with [] => [p] | _ => [] end | _ => [] end) l.
(** what is injected, in order: (from, (to, data)) *)
Definition injected (l : list (op * res)) : list (bytes * (bytes * bytes)) := flat_map (fun x => match fst x with Inject from to data => [(from, (to, data))] | _ => [] end) l.
(** a packet carries what is injected; it may come from anywhere if no sender is given *)
Definition carries (x : bytes * (bytes * bytes)) (p : packet) : Prop := p_to p = fst (snd x) /\ p_data p = snd (snd x) /\ (fst x <> [] -> p_from p = fst x).
(** the destination of the last packet sent *)
Definition last_dest (x : list (bytes * (bytes * bytes))) (none : bytes) : bytes := last (map (fun y => fst (snd y)) x) none.
(** connections are neither accepted nor made *)
Definition datagrams (l : list (op * res)) : Prop := Forall (fun x => match fst x with Accept _ _ _ | Connect _ _ _ _ => False | _ => True end) l.
(** all patterns and addresses are C strings *)
Definition texts (l : list (op * res)) : Prop := Forall (fun x => match fst x with Inject _ to _ => cstr to | Recv a _ _ | Recvfrom a _ _ | Accept a _ _ | Connect _ a _ _ => cstr a | _ => True end) l.
(** a list with some elements left out *)
Inductive sublist {X : Type} : list X -> list X -> Prop :=
| Sub_nil : sublist [] []
| Sub_skip x a b : sublist a b -> sublist a (x :: b)
| Sub_keep x a b : sublist a b -> sublist (x :: a) (x :: b).

(** the characters of addresses: digits, dots, colons, and * and ? of patterns *)
Definition of_address (c : byte) : bool := existsb (N.eqb c) (str "0123456789.:*?").
