(** What a correct program using shared handles looks like, and who owns what. *)
From Coq Require Import List Bool Arith.
From Verif Require Import SharedPtrModel.
Import ListNotations.

(** objects handed over to a handle by an operation *)
Definition adopts (o : op) : list nat :=
  match o with New _ (Some x) => [x] | AssignNew _ x => [x] | _ => [] end.
Definition adopted (os : list op) : list nat := flat_map adopts os.

(** handle names in scope after the operations; None when a name is declared twice or used undeclared *)
Definition scope1 (ns : list nat) (o : op) : option (list nat) :=
  match o with
  | New h _ => if existsb (Nat.eqb h) ns then None else Some (h :: ns)
  | Copy h g => if existsb (Nat.eqb h) ns then None else if existsb (Nat.eqb g) ns then Some (h :: ns) else None
  | Assign h g => if existsb (Nat.eqb h) ns && existsb (Nat.eqb g) ns then Some ns else None
  | AssignNew h _ | Reset h => if existsb (Nat.eqb h) ns then Some ns else None
  | Drop h => if existsb (Nat.eqb h) ns then Some (filter (fun n => negb (Nat.eqb n h)) ns) else None
  end.
Fixpoint scoped (ns : list nat) (os : list op) : Prop :=
  match os with
  | [] => True
  | o :: r => match scope1 ns o with Some ns' => scoped ns' r | None => False end
  end.

(** a well-formed program declares handles before use and hands each raw pointer over once *)
Definition well_formed (os : list op) : Prop := scoped [] os /\ NoDup (adopted os).

(** some handle in scope designates the object *)
Definition held (st : state) (x : nat) : Prop := exists h v, In (h, v) (handles st) /\ px v = Some x.
