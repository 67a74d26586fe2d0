(** Model of the hijacked sockets (source/net/h2_socket.cpp, source/net/h2_socket.hpp).

    Addresses are texts "ip:port" as iport_tostring writes them (h2_socket.cpp:55-60); what getsockname and fcntl say of a socket
    (h2_socket.cpp:4-11, 72-79) comes with the call.  Not modelled: the errno of the system, the sockets the system
    creates.  The conversion of such a text into a sockaddr (h2_socket.cpp:41-53) is in IportModel. *)
From Coq Require Import List NArith ZArith Bool Arith.
From Verif Require Import Base GlobModel FilterModel.
Import ListNotations.
Local Open Scope N_scope.

(** h2_packet (h2_socket.hpp:1-5); [pid] is the identity of the object, in the order of creation *)
Record packet := { pid : nat; p_from : bytes; p_to : bytes; p_data : bytes }.
(** h2_socket (h2_socket.cpp:178-184, 208-209): incoming, outgoing, sockets as (fd, (from, to)), last_to, packets created *)
Record net := { incoming : list packet; outgoing : list packet; sockets : list (Z * (bytes * bytes)); last_to : bytes; fresh : nat }.

(** wildcard_match (source/utils/h2_pattern.cpp:16-38) with an iteration budget that suffices (C04) *)
Definition selects (pattern subject : bytes) : bool :=
  match wildcard_match false (S (S (length pattern) * (S (length subject) * S (length subject)) + length subject)) pattern subject with Some b => b | None => false end.
(** one round of read_incoming (h2_socket.cpp:87-92): the packet taken out and the others *)
Fixpoint pick (loc : bytes) (l : list packet) : option (packet * list packet) :=
  match l with
  | [] => None
  | p :: r => if selects (p_to p) loc then Some (p, r) else match pick loc r with Some (q, r') => Some (q, p :: r') | None => None end
  end.
(** with another list of incoming packets (h2_socket.cpp:89, 113, 127) *)
Definition with_incoming (l : list packet) (s : net) : net := {| incoming := l; outgoing := outgoing s; sockets := sockets s; last_to := last_to s; fresh := fresh s |}.
(** with another socket (h2_socket.cpp:112, 121) *)
Definition with_socket (x : Z * (bytes * bytes)) (s : net) : net := {| incoming := incoming s; outgoing := outgoing s; sockets := sockets s ++ [x]; last_to := last_to s; fresh := fresh s |}.
(** put_outgoing (h2_socket.cpp:186-190) *)
Definition put_outgoing (from to data : bytes) (s : net) : net :=
  {| incoming := incoming s; outgoing := outgoing s ++ [{| pid := fresh s; p_from := from; p_to := to; p_data := data |}]; sockets := sockets s; last_to := to; fresh := S (fresh s) |}.
(** the addresses of a file descriptor (h2_socket.cpp:193-200) *)
Definition peer (fd : Z) (l : list (Z * (bytes * bytes))) : bytes * bytes := match List.find (fun t => Z.eqb (fst t) fd) l with Some t => snd t | None => ([], []) end.
(** put_incoming (h2_socket.cpp:203-206) *)
Definition put_incoming (from to data : bytes) (s : net) : net :=
  {| incoming := incoming s ++ [{| pid := fresh s; p_from := match from with [] => last_to s | _ => from end; p_to := to; p_data := data |}]; outgoing := outgoing s; sockets := sockets s; last_to := last_to s; fresh := S (fresh s) |}.

(** calls of the program under test, H2SOCK's Pij and Ptx; [loc]: the local address of the socket, [block]: it is blocking (h2_socket.cpp:98-173) *)
Inductive op :=
| Send (fd : Z) (data : bytes) | Sendto (loc dest data : bytes)
| Recv (loc : bytes) (block : bool) (length : nat) | Recvfrom (loc : bytes) (block : bool) (length : nat)
| Accept (loc : bytes) (block : bool) (newfd : Z) | Connect (fd : Z) (loc : bytes) (block : bool) (dest : bytes)
| Inject (from to data : bytes) | Fetch.
(** what a call returns: nothing; a length; the packet received; 0 bytes; -1 with EWOULDBLOCK; a new descriptor and the packet that
    opened it; the packet that opened the connection; the packet fetched or none (h2_socket.cpp:98-173) *)
Inductive res := Nothing | Sent (n : nat) | Got (p : packet) | Zero | Again | Opened (fd : Z) (p : packet) | Linked (p : packet) | Fetched (p : option packet).
(** the state and the result; or it waits for ever; or memory behind the buffer is written (h2_socket.cpp:86-94, 142, 158) *)
Inductive outcome := Ok (s : net) (r : res) | Waits | Overruns.
(** read_incoming (h2_socket.cpp:81-96) followed by a continuation *)
Definition read_incoming (loc : bytes) (block : bool) (s : net) (none : outcome) (some : packet -> net -> outcome) : outcome :=
  match pick loc (incoming s) with
  | Some (p, r) => some p (with_incoming r s)
  | None => if block then Waits else none
  end.
(** recv and recvfrom (h2_socket.cpp:137-146, 152-164): the whole packet is copied *)
Definition recv (loc : bytes) (block : bool) (len : nat) (s : net) : outcome :=
  read_incoming loc block s (Ok s Zero) (fun p s' => if (len <? length (p_data p))%nat then Overruns else Ok s' (Got p)).
(** the packet that opened a connection stays if it has data (h2_socket.cpp:113-114, 127-128) *)
Definition keep (p : packet) (s : net) : net := match p_data p with [] => s | _ => with_incoming (p :: incoming s) s end.
(** one call (h2_socket.cpp:98-173) *)
Definition step (o : op) (s : net) : outcome :=
  match o with
  | Send fd data => let a := peer fd (sockets s) in Ok (put_outgoing (fst a) (snd a) data s) (Sent (length data))          (* h2_socket.cpp:132-136 *)
  | Sendto loc dest data => Ok (put_outgoing loc dest data s) (Sent (length data))                                          (* h2_socket.cpp:147-151 *)
  | Recv loc block len | Recvfrom loc block len => recv loc block len s
  | Accept loc block fd => read_incoming loc block s (Ok s Again) (fun p s' => Ok (keep p (with_socket (fd, (loc, p_from p)) s')) (Opened fd p))   (* h2_socket.cpp:98-117 *)
  | Connect fd loc block dest => let s1 := with_socket (fd, (loc, dest)) s in read_incoming loc block s1 (Ok s1 Again) (fun p s' => Ok (keep p s') (Linked p))   (* h2_socket.cpp:119-130 *)
  | Inject from to data => Ok (put_incoming from to data s) Nothing                                                         (* h2_socket.cpp:257-263 *)
  | Fetch => match outgoing s with                                                                                          (* h2_socket.cpp:240-243 *)
             | [] => Ok s (Fetched None)
             | p :: r => Ok {| incoming := incoming s; outgoing := r; sockets := sockets s; last_to := last_to s; fresh := fresh s |} (Fetched (Some p))
             end
  end.
(** h2_sock::h2_sock after stop (h2_socket.cpp:211-237, 270-278): the queues are empty, sockets are still there *)
Definition start (s : net) : net := {| incoming := []; outgoing := []; sockets := sockets s; last_to := str "0.0.0.0:0"; fresh := fresh s |}.
(** a run: the calls with their results (calls of h2_socket.cpp:98-173) *)
Inductive runs : net -> list (op * res) -> net -> Prop :=
| Run_nil s : runs s [] s
| Run_step s o r s1 l s2 : step o s = Ok s1 r -> runs s1 l s2 -> runs s ((o, r) :: l) s2.

(** ** the attributes of Pij *)
(** strcasestr (used in source/utils/h2_misc.cpp:54): the text from the first occurrence on *)
Fixpoint from_key (s key : bytes) : option bytes := if case_prefix key s then Some s else match s with [] => None | _ :: r => from_key r key end.
(** get_keyvalue (h2_misc.cpp:52-59) *)
Definition get_keyvalue (s key : bytes) : option bytes :=
  match from_key s key with
  | None => None
  | Some t => match strip_left (skipn (length key) t) with 61 :: v => Some (strip_left v) | _ => Some [] end
  end.
(** characters of an address or a pattern of addresses (h2_socket.cpp:248) *)
Definition iport_char (c : byte) : bool := ((48 <=? c) && (c <=? 57)) || (c =? 46) || (c =? 58) || (c =? 42) || (c =? 63).
(** parse_iport (h2_socket.cpp:245-255): the characters written *)
Fixpoint parse_iport (s : bytes) : bytes :=
  match s with
  | [] => []
  | c :: r => if iport_char c then c :: parse_iport r else if isspace c || (c =? 34) then parse_iport r else []
  end.
(** the buffer after parse_iport; its former content stays if nothing is written; None: longer than the buffer (h2_socket.cpp:259) *)
Definition into (s : option bytes) (former : bytes) : option bytes :=
  match s with
  | None => Some former
  | Some s => match parse_iport s with [] => Some former | w => if (255 <? length w)%nat then None else Some w end
  end.
(** inject (h2_socket.cpp:257-263) *)
Definition inject (attributes : bytes) : option (bytes * bytes) :=
  match into (get_keyvalue attributes (str "from")) [], into (get_keyvalue attributes (str "to")) (str "*") with
  | Some f, Some t => Some (f, t)
  | _, _ => None
  end.
