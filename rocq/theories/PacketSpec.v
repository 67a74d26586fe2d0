(** What Ptx has to check. *)
From Coq Require Import List NArith ZArith Bool Arith.
From Verif Require Import Base GlobSpec SockModel MockmsgModel PacketModel.
Import ListNotations.
Local Open Scope N_scope.

(** what is said of one part of a packet: nothing if it is as expected; otherwise what its matcher says, under the name of the part *)
Inductive part (ok : Prop) (name : bytes) (said : list note) : list note -> Prop :=
| p_right : ok -> part ok name said []
| p_wrong s e f k r : ~ ok -> said = Note s e f k :: r -> part ok name said (Note s [name] f k :: r).
(** a failure by itself *)
Definition bare : list note := [Note None [] [] []].
(** a packet is as expected, part by part *)
Record parts (c : check) (f t d : bytes) (said : list note) (l1 l2 l3 l4 : list note) : Prop := mkparts {
  q_from : part (glob false (c_from c) f) (str "from address") bare l1;
  q_to : part (glob false (c_to c) t) (str "to address") bare l2;
  q_payload : part (said = []) (str "payload") said l3;
  q_size : part (c_size c (Z.of_nat (length d)) = []) (str "payload length") (c_size c (Z.of_nat (length d))) l4 }.
(** addresses are C strings *)
Definition addressed (c : check) (f t : bytes) : Prop := cstr (c_from c) /\ cstr (c_to c) /\ cstr f /\ cstr t.
(** plain text: nothing that could be taken for a colour *)
Definition plain (s : bytes) : Prop := ~ In 27 s.
