(** What a hijacked lookup is to return. *)
From Coq Require Import List NArith Bool Arith.
From Verif Require Import Base DnsModel.
Import ListNotations.
Local Open Scope N_scope.

(** the case running after a history given newest event first *)
Fixpoint running (back : list event) : option N :=
  match back with [] => None | Enter c :: _ => c | _ :: r => running r end.
(** the H2DNS of a history, newest first, that are in force: those not set inside a case that has ended since; [ended]: cases
    ended later *)
Fixpoint in_force (ended : list N) (back : list event) : list (list (option bytes)) :=
  match back with
  | [] => []
  | Clear c :: r => in_force (c :: ended) r
  | Enter _ :: r => in_force ended r
  | Set_ [] :: r => in_force ended r
  | Set_ args :: r => match running r with
                      | Some c => if in_dec N.eq_dec c ended then in_force ended r else args :: in_force ended r
                      | None => args :: in_force ended r
                      end
  end.
(** the names (no addresses) among the arguments of H2DNS *)
Definition is_name (pton : bytes -> option N) (args : list (option bytes)) (p : bytes) : Prop := In (Some p) args /\ pton p = None.
(** [h] is the first of the shortest names *)
Definition first_shortest (pton : bytes -> option N) (args : list (option bytes)) (h : bytes) : Prop :=
  exists before after, args = before ++ Some h :: after /\ pton h = None /\
    (forall p, is_name pton before p -> (length h < length p)%nat) /\ (forall p, is_name pton after p -> (length h <= length p)%nat).
(** names have two characters or more, and something is given *)
Definition proper (pton : bytes -> option N) (args : list (option bytes)) : Prop := args <> [] /\ forall p, is_name pton args p -> (2 <= length p)%nat.
(** the host an H2DNS is about: any, if it has no name, else the first of the shortest names *)
Definition about (pton : bytes -> option N) (args : list (option bytes)) (host : bytes) : Prop :=
  (forall p, ~ is_name pton args p) \/ first_shortest pton args host.
(** its results: all arguments but the name, in order *)
Definition results (pton : bytes -> option N) (args : list (option bytes)) (rs : list bytes) : Prop :=
  exists h, ((forall p, ~ is_name pton args p) /\ h = str "*" \/ first_shortest pton args h) /\
    rs = flat_map (fun p => match p with Some p => if list_eq_dec N.eq_dec p h then [] else [p] | None => [] end) args.
(** [args] is the newest H2DNS in force about [host] *)
Definition newest (pton : bytes -> option N) (es : list event) (host : bytes) (args : list (option bytes)) : Prop :=
  exists newer older, in_force [] (rev es) = newer ++ args :: older /\ about pton args host /\ forall x, In x newer -> ~ about pton x host.
(** one result of getaddrinfo: an address if it is one, else a canonical name; family, type and protocol as asked for *)
Definition info_of (pton : bytes -> option N) (hints : option (N * N * N)) (r : bytes) (i : info) : Prop :=
  ai_addr i = pton r /\ (ai_canonname i = match pton r with Some _ => None | None => Some r end) /\
  (ai_family i, ai_socktype i, ai_protocol i) = match hints with Some h => h | None => (2, 1, 6) end.
