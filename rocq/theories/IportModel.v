(** Model of addresses of hijacked sockets: iport_parse, iport_tostring and the calls that hand out or take a sockaddr
    (source/net/h2_socket.cpp:41-60, 72-79, 98-173).

    A sockaddr_in is what it says of family, port and address; sin_zero is left out.  Integers of 16 bits are stored the little endian
    way.  inet_pton and inet_ntop for AF_INET are parameters.  The queues and the choice of packets are those of SockModel. *)
From Coq Require Import List NArith ZArith Bool Arith.
From Verif Require Import Base JunitModel SockModel.
Import ListNotations.
Local Open Scope N_scope.

(** struct sockaddr_in (used at h2_socket.cpp:41-60); an address never written is None *)
Record sockaddr := mkaddr { family : N; sin_port : N; sin_addr : option (list N) }.
(** htons and ntohs on a little endian machine (h2_socket.cpp:50, 58) *)
Definition htons (x : N) : N := x mod 256 * 256 + x / 256 mod 256.
(** what strchr(temp, ':') separates (h2_socket.cpp:47-49): the text before the first colon, and that behind it if there is one *)
Fixpoint at_colon (s : bytes) : bytes * option bytes :=
  match s with
  | [] => ([], None)
  | c :: r => if c =? 58 then ([], Some r) else let (a, b) := at_colon r in (c :: a, b)
  end.
(** the digits atoi reads (h2_socket.cpp:50); texts come from iport_tostring or parse_iport, so neither blanks nor signs come first *)
Fixpoint leading (n : N) (s : bytes) : N :=
  match s with c :: r => if (48 <=? c) && (c <=? 57) then leading (10 * n + (c - 48)) r else n | [] => n end.
(** iport_parse (h2_socket.cpp:41-53); None: temp is too short for the text, or atoi beyond int *)
Definition iport_parse (pton : bytes -> option (list N)) (s : bytes) (a : sockaddr) : option sockaddr :=
  if (1023 <? length s)%nat then None
  else let (ip, p) := at_colon s in
       let addr := match pton ip with Some x => Some x | None => sin_addr a end in
       match p with
       | None => Some (mkaddr 2 0 addr)
       | Some p => let n := leading 0 p in if 2147483647 <? n then None else Some (mkaddr 2 (htons (n mod 65536)) addr)
       end.
(** iport_tostring (h2_socket.cpp:55-60) *)
Definition iport_tostring (ntop : list N -> bytes) (a : sockaddr) : option bytes :=
  match sin_addr a with Some ip => Some (ntop ip ++ str ":" ++ dec (htons (sin_port a))) | None => None end.

(** what a call gives: the state, the result and the sockaddr filled in; it waits for ever; it writes behind a buffer; it writes through a
    null pointer; it reads what was never written (h2_socket.cpp:98-173) *)
Inductive answer := Done (s : net) (r : res) (a : option sockaddr) | Waiting | Overrun | Null | Unwritten.
(** the text of the socket's own address, from getsockname (h2_socket.cpp:72-79) *)
Definition with_text (ntop : list N -> bytes) (a : sockaddr) (k : bytes -> answer) : answer := match iport_tostring ntop a with Some t => k t | None => Unwritten end.
(** a call of SockModel whose result has no sockaddr (h2_socket.cpp:132-151) *)
Definition plainly (o : outcome) : answer := match o with Ok s r => Done s r None | Waits => Waiting | Overruns => Overrun end.
(** filling in the sender of a packet (h2_socket.cpp:105, 160) *)
Definition fill (pton : bytes -> option (list N)) (p : packet) (address : option sockaddr) (s : net) (r : res) : answer :=
  match address with
  | None => Null
  | Some a => match iport_parse pton (p_from p) a with Some a' => Done s r (Some a') | None => Overrun end
  end.
(** sendto and sendmsg (h2_socket.cpp:147-151, 166-169) *)
Definition sendto (ntop : list N -> bytes) (own dest : sockaddr) (data : bytes) (s : net) : answer :=
  with_text ntop own (fun l => with_text ntop dest (fun d => plainly (step (Sendto l d data) s))).
(** recvfrom and recvmsg (h2_socket.cpp:152-164, 170-173); [address] is what the pointer points to, None for a null pointer *)
Definition recvfrom (pton : bytes -> option (list N)) (ntop : list N -> bytes) (own : sockaddr) (block : bool) (len : nat) (address : option sockaddr) (s : net) : answer :=
  with_text ntop own (fun l =>
    match step (Recvfrom l block len) s with
    | Ok s' (Got p) => fill pton p address s' (Got p)
    | Ok s' r => Done s' r address
    | Waits => Waiting
    | Overruns => Overrun
    end).
(** accept (h2_socket.cpp:98-117) *)
Definition accept (pton : bytes -> option (list N)) (ntop : list N -> bytes) (own : sockaddr) (block : bool) (fd : Z) (address : option sockaddr) (s : net) : answer :=
  with_text ntop own (fun l =>
    match step (Accept l block fd) s with
    | Ok s' (Opened fd p) => fill pton p address s' (Opened fd p)
    | Ok s' r => Done s' r address
    | Waits => Waiting
    | Overruns => Overrun
    end).
(** connect (h2_socket.cpp:119-130) *)
Definition connect (ntop : list N -> bytes) (fd : Z) (own dest : sockaddr) (block : bool) (s : net) : answer :=
  with_text ntop own (fun l => with_text ntop dest (fun d => plainly (step (Connect fd l block d) s))).
