(** What assertions on numbers should mean. *)
From Coq Require Import ZArith QArith Qabs Qround Bool.
From Verif Require Import NumModel.
Local Open Scope Z_scope.

(** a value of an existing integer type *)
Definition value (t : ity) (v : Z) : Prop := valid t = true /\ in_type t v = true.
(** is the type signed; bool counts as unsigned *)
Definition signed (t : ity) : bool := match t with Signed _ => true | _ => false end.
(** comparison of two integers as such *)
Definition holds (op : op1) (l r : Z) : Prop :=
  match op with OEq => l = r | ONe => l <> r | OGt => l > r | OLt => l < r | OGe => l >= r | OLe => l <= r end.
(** distance of two numbers *)
Definition dist (a b : Q) : Q := Qabs (a - b).
(** [a] is close to one of start, start+step, ... below the end *)
Definition in_range (start end_ step a : Q) : Prop :=
  exists k : Z, 0 <= k /\ (start + inject_Z k * step < end_)%Q /\ (dist a (start + inject_Z k * step) <= 1 # 100000)%Q.
(** number of bits of a type *)
Definition bits (t : ity) : Z := match t with Boolean => 1 | Signed b | Unsigned b => b end.
(** every value of the unsigned type is one of the signed type or of int *)
Definition holdable (tl tr : ity) : Prop := signed tl = true -> signed tr = false -> bits tr < Z.max 32 (bits tl).
(** an argument of Range that may be left out *)
Definition arg (x : option Q) : Q := match x with Some q => q | None => omitted end.
