(** Model of the hijacked name resolution (source/net/h2_dns.cpp).

    [pton] is inet_pton(AF_INET, ...) == 1 with the address it writes (h2_dns.cpp:12-17), an oracle.
    A name is a C string (no NUL); varargs that are NULL are None. *)
From Coq Require Import List NArith Bool Arith.
From Verif Require Import Base.
Import ListNotations.
Local Open Scope N_scope.

Section Dns.
(** the address written by a text, None if it is none (inet_pton, used at h2_dns.cpp:12-17) *)
Variable pton : bytes -> option N.

(** h2_domain (h2_dns.cpp:1-6); [owner]: the case whose list has it by x, None if none *)
Record domain := { owner : option N; name : bytes; resolves : list bytes }.
(** dnses of the resolver, first first (h2_dns.cpp:10), and current_case (source/core/h2_runner.hpp:5) *)
Record dns := { table : list domain; current : option N }.

(** which of the arguments is the name (h2_dns.cpp:120-127) *)
Definition choose (args : list (option bytes)) : bytes :=
  fold_left (fun h p =>
    match p with
    | None => h
    | Some p => match pton p with
                | Some _ => h
                | None => if (length h <? 2)%nat || (length p <? length h)%nat then p else h
                end
    end) args (str "*").
(** the results (h2_dns.cpp:130-134) *)
Definition others (h : bytes) (args : list (option bytes)) : list bytes :=
  flat_map (fun p => match p with Some p => if bytes_eqb h p then [] else [p] | None => [] end) args.
(** setaddrinfo (h2_dns.cpp:115-140) *)
Definition setaddrinfo (args : list (option bytes)) (s : dns) : dns :=
  match args with
  | [] => s
  | _ => let h := choose args in {| table := {| owner := current s; name := h; resolves := others h args |} :: table s; current := current s |}
  end.
(** h2_dnses::clear of the list of case [c] (h2_dns.cpp:106-113, source/core/h2_case.cpp:20) *)
Definition clear (c : N) (s : dns) : dns :=
  {| table := filter (fun d => match owner d with Some o => negb (o =? c) | None => true end) (table s); current := current s |}.
(** find (h2_dns.cpp:19-25) *)
Definition find (host : bytes) (s : dns) : option domain := List.find (fun d => bytes_eqb (name d) (str "*") || bytes_eqb (name d) host) (table s).

(** what concerns the resolver: H2DNS, the runner entering a case or leaving (source/core/h2_runner.cpp:149, 166), the end of a case *)
Inductive event := Set_ (args : list (option bytes)) | Enter (c : option N) | Clear (c : N).
(** one event (h2_dns.cpp:115-139, h2_runner.cpp:149, h2_dns.cpp:106-113) *)
Definition step (s : dns) (e : event) : dns :=
  match e with Set_ args => setaddrinfo args s | Enter c => {| table := table s; current := c |} | Clear c => clear c s end.
(** a history, oldest event first (calls of h2_dns.cpp:106-139) *)
Definition history (es : list event) : dns := fold_left step es {| table := []; current := None |}.

(** a lookup: not found; results; written or read outside the static tables (h2_dns.cpp:27-89) *)
Inductive looked (X : Type) := Missing | Found (x : X) | Outside.
Arguments Missing {X}. Arguments Found {X}. Arguments Outside {X}.
(** an addrinfo (h2_dns.cpp:39-55): address or canonical name; family, socktype and protocol *)
Record info := { ai_addr : option N; ai_canonname : option bytes; ai_family : N; ai_socktype : N; ai_protocol : N }.
(** getaddrinfo (h2_dns.cpp:27-60); AF_INET = 2, SOCK_STREAM = 1, IPPROTO_TCP = 6 *)
Definition getaddrinfo (host : bytes) (hints : option (N * N * N)) (s : dns) : looked (list info) :=
  match find host s with
  | None => Missing
  | Some d =>
      if (32 <? length (resolves d))%nat then Outside
      else Found (map (fun r => let '(f, t, p) := match hints with Some h => h | None => (2, 1, 6) end in
             match pton r with
             | Some x => {| ai_addr := Some x; ai_canonname := None; ai_family := f; ai_socktype := t; ai_protocol := p |}
             | None => {| ai_addr := None; ai_canonname := Some r; ai_family := f; ai_socktype := t; ai_protocol := p |}
             end) (resolves d))
  end.
(** the entries of a table of 32 pointers, zeroed and then filled from the front (h2_dns.cpp:79-87) *)
Definition slots {X} (l : list X) : list (option X) := map Some l ++ repeat None (32 - length l).
(** how a caller reads such a table: up to the null pointer; None: there is none within the table (the table is the one of h2_dns.cpp:70-81) *)
Fixpoint read_slots {X} (l : list (option X)) : option (list X) :=
  match l with [] => None | None :: _ => Some [] | Some x :: r => match read_slots r with Some t => Some (x :: t) | None => None end end.
(** gethostbyname (h2_dns.cpp:64-89) as its caller reads it: h_addr_list and h_aliases *)
Definition gethostbyname (host : bytes) (s : dns) : looked (list N * list bytes) :=
  match find host s with
  | None => Missing
  | Some d =>
      if (32 <? length (resolves d))%nat then Outside
      else match read_slots (slots (flat_map (fun r => match pton r with Some x => [x] | None => [] end) (resolves d))),
                 read_slots (slots (filter (fun r => match pton r with Some _ => false | None => true end) (resolves d))) with
           | Some a, Some c => Found (a, c)
           | _, _ => Outside
           end
  end.
End Dns.
Arguments Missing {X}. Arguments Found {X}. Arguments Outside {X}.
