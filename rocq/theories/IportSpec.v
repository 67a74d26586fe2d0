(** How addresses are written (C96). *)
From Coq Require Import List NArith Bool Arith.
From Verif Require Import Base JunitSpec SockModel IportModel.
Import ListNotations.
Local Open Scope N_scope.

(** a.b.c.d *)
Definition dotted (ip : list N) (t : bytes) : Prop :=
  exists a b c d ta tb tc td, ip = [a; b; c; d] /\ a < 256 /\ b < 256 /\ c < 256 /\ d < 256 /\ decimal ta a /\ decimal tb b /\ decimal tc c /\ decimal td d /\ t = ta ++ [46] ++ tb ++ [46] ++ tc ++ [46] ++ td.
(** the C library reads and writes just these *)
Definition reads_dotted (pton : bytes -> option (list N)) : Prop := forall t ip, pton t = Some ip <-> dotted ip t.
Definition writes_dotted (ntop : list N -> bytes) : Prop := forall a b c d, a < 256 -> b < 256 -> c < 256 -> d < 256 -> dotted [a; b; c; d] (ntop [a; b; c; d]).
(** a.b.c.d:port *)
Definition address (ip : list N) (port : N) (t : bytes) : Prop := exists x d, dotted ip x /\ decimal d port /\ port < 65536 /\ t = x ++ [58] ++ d.
(** the bytes of a 16 bit number in memory *)
Definition in_memory (x : N) : list N := [x mod 256; x / 256].
(** a sockaddr of an address: family AF_INET, the port with the higher byte first *)
Definition stands_for (a : sockaddr) (ip : list N) (port : N) : Prop := family a = 2 /\ sin_addr a = Some ip /\ sin_port a < 65536 /\ in_memory (sin_port a) = [port / 256; port mod 256].
(** four numbers *)
Definition quad (ip : list N) : Prop := exists a b c d, ip = [a; b; c; d] /\ a < 256 /\ b < 256 /\ c < 256 /\ d < 256.
