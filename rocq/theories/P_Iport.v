(** C96: addresses of packets. *)
From Coq Require Import List NArith ZArith Bool Arith Lia.
From Verif Require Import Base JunitModel JunitSpec JunitProofs SockModel IportModel IportSpec IportProofs IportProofs2 IportProofs3 IportProofs4.
From Verif Require GlobSpec.
Import ListNotations.
Local Open Scope N_scope.

(** ip:port, as a test writes it, gives the sockaddr with this address and this port in network order *)
Theorem C96_parsed : forall pton, reads_dotted pton -> forall ip port t a, address ip port t -> exists a', iport_parse pton t a = Some a' /\ stands_for a' ip port.
Proof. exact parsed. Qed.
Print Assumptions C96_parsed.
(** without a port it is 0 *)
Theorem C96_without_port : forall pton, reads_dotted pton -> forall ip t a, dotted ip t -> exists a', iport_parse pton t a = Some a' /\ stands_for a' ip 0.
Proof. exact without_port. Qed.
Print Assumptions C96_without_port.
(** a sockaddr of the program shows as ip:port *)
Theorem C96_shown : forall ntop, writes_dotted ntop -> forall a ip port, quad ip -> port < 65536 -> stands_for a ip port -> exists t, iport_tostring ntop a = Some t /\ address ip port t.
Proof. exact written. Qed.
Print Assumptions C96_shown.
Theorem C96_round_trip : forall pton ntop, reads_dotted pton -> writes_dotted ntop -> forall a b ip port t, quad ip -> port < 65536 -> stands_for a ip port -> iport_tostring ntop a = Some t ->
  exists a', iport_parse pton t b = Some a' /\ sin_addr a' = sin_addr a /\ sin_port a' = sin_port a.
Proof. exact round_trip. Qed.
Print Assumptions C96_round_trip.
(** recvfrom and accept tell the sender of the packet *)
Theorem C96_received : forall pton ntop, reads_dotted pton -> forall own block len a s s' p ad ip port, recvfrom pton ntop own block len (Some a) s = Done s' (Got p) ad -> address ip port (p_from p) ->
  exists a', ad = Some a' /\ stands_for a' ip port.
Proof. exact received. Qed.
Print Assumptions C96_received.
Theorem C96_accepted : forall pton ntop, reads_dotted pton -> forall own block fd a s s' fd' p ad ip port, accept pton ntop own block fd (Some a) s = Done s' (Opened fd' p) ad -> address ip port (p_from p) ->
  exists a', ad = Some a' /\ stands_for a' ip port.
Proof. exact accepted. Qed.
Print Assumptions C96_accepted.
(** sendto records a packet from the socket's own address to that of its argument *)
Theorem C96_sent : forall ntop, writes_dotted ntop -> forall own dest data s ip port ip' port', quad ip -> port < 65536 -> stands_for own ip port -> quad ip' -> port' < 65536 -> stands_for dest ip' port' ->
  exists s' p, sendto ntop own dest data s = Done s' (Sent (length data)) None /\ outgoing s' = outgoing s ++ [p] /\ incoming s' = incoming s /\ last_to s' = p_to p /\
    address ip port (p_from p) /\ address ip' port' (p_to p) /\ p_data p = data.
Proof. exact sent. Qed.
Print Assumptions C96_sent.
(** answering to the sockaddr that came with a packet sends to where the packet came from *)
Theorem C96_answered : forall pton ntop, reads_dotted pton -> writes_dotted ntop -> forall own block len a s s1 p ad ip port data oip oport,
  recvfrom pton ntop own block len (Some a) s = Done s1 (Got p) ad -> address ip port (p_from p) -> quad oip -> oport < 65536 -> stands_for own oip oport ->
  exists a' s2 q, ad = Some a' /\ sendto ntop own a' data s1 = Done s2 (Sent (length data)) None /\ outgoing s2 = outgoing s ++ [q] /\ p_to q = p_from p /\ p_data q = data.
Proof. exact answered. Qed.
Print Assumptions C96_answered.
(** a packet injected without a sender comes from the address last sent to *)
Theorem C96_replied : forall ntop, writes_dotted ntop -> forall own dest data s s1 ip port ip' port' to rdata s2 r, quad ip -> port < 65536 -> stands_for own ip port -> quad ip' -> port' < 65536 -> stands_for dest ip' port' ->
  sendto ntop own dest data s = Done s1 (Sent (length data)) None -> step (Inject [] to rdata) s1 = Ok s2 r ->
  exists p, incoming s2 = incoming s ++ [p] /\ address ip' port' (p_from p) /\ p_data p = rdata.
Proof. exact replied. Qed.
Print Assumptions C96_replied.
(** an address that is not four numbers, such as a pattern, leaves the caller's address as it was; only the port is filled in *)
Theorem C96_pattern_sender : forall pton, reads_dotted pton -> forall t a, ~ In 58 t -> (length t <= 1000)%nat -> (forall ip, ~ dotted ip t) -> forall d port, decimal d port -> port < 65536 ->
  exists a', iport_parse pton (t ++ [58] ++ d) a = Some a' /\ sin_addr a' = sin_addr a.
Proof. exact unreadable. Qed.
Print Assumptions C96_pattern_sender.
(** what is sent on a connected or an accepted socket goes from its own address to the one connected to or to the sender of the opening packet *)
Theorem C96_connected : forall ntop, writes_dotted ntop -> forall fd own dest block s s1 r ad data ip port ip' port', quad ip -> port < 65536 -> stands_for own ip port -> quad ip' -> port' < 65536 -> stands_for dest ip' port' ->
  ~ In fd (map fst (sockets s)) -> connect ntop fd own dest block s = Done s1 r ad ->
  exists s2 p, step (Send fd data) s1 = Ok s2 (Sent (length data)) /\ outgoing s2 = outgoing s ++ [p] /\ address ip port (p_from p) /\ address ip' port' (p_to p) /\ p_data p = data.
Proof. exact connected. Qed.
Print Assumptions C96_connected.
Theorem C96_served : forall pton ntop, writes_dotted ntop -> forall own block fd a s s1 p ad data ip port, quad ip -> port < 65536 -> stands_for own ip port ->
  ~ In fd (map fst (sockets s)) -> accept pton ntop own block fd (Some a) s = Done s1 (Opened fd p) ad ->
  exists s2 q, step (Send fd data) s1 = Ok s2 (Sent (length data)) /\ outgoing s2 = outgoing s ++ [q] /\ address ip port (p_from q) /\ p_to q = p_from p /\ p_data q = data.
Proof. exact served. Qed.
Print Assumptions C96_served.

(** a reader and a writer as the theorems ask for; a server at 10.0.0.1:8080 *)
Definition C96_empty : net := {| incoming := []; outgoing := []; sockets := []; last_to := str "0.0.0.0:0"; fresh := 0 |}.
Definition C96_own : sockaddr := mkaddr 2 0x901f (Some [10; 0; 0; 1]).
Definition C96_before : sockaddr := mkaddr 0 7 None.
Example C96_example : reads_dotted pton0 /\ writes_dotted ntop0 /\ stands_for C96_own [10; 0; 0; 1] 8080 /\ quad [10; 0; 0; 1] /\
  iport_tostring ntop0 C96_own = Some (str "10.0.0.1:8080") /\
  iport_parse pton0 (str "192.168.0.254:258") C96_before = Some (mkaddr 2 0x0201 (Some [192; 168; 0; 254])) /\ address [192; 168; 0; 254] 258 (str "192.168.0.254:258") /\
  iport_parse pton0 (str "192.168.0.254") C96_before = Some (mkaddr 2 0 (Some [192; 168; 0; 254])) /\
  exists s1 p a s2, recvfrom pton0 ntop0 C96_own true 10 (Some C96_before) (put_incoming (str "1.2.3.4:5") (str "10.0.0.1:*") (str "hi") C96_empty) = Done s1 (Got p) (Some a) /\ stands_for a [1; 2; 3; 4] 5 /\
    sendto ntop0 C96_own a (str "yes") s1 = Done s2 (Sent 3) None /\ map (fun p => (p_from p, p_to p, p_data p)) (outgoing s2) = [(str "10.0.0.1:8080", str "1.2.3.4:5", str "yes")].
Proof.
  split; [exact pton0_ok|]. split; [exact ntop0_ok|]. split; [split; [reflexivity|split; [reflexivity|split; [vm_compute; reflexivity|vm_compute; reflexivity]]]|]. split; [exists 10, 0, 0, 1; repeat split|].
  split; [vm_compute; reflexivity|]. split; [vm_compute; reflexivity|].
  split; [exists (str "192.168.0.254"), (str "258"); split; [apply pton0_ok; vm_compute; reflexivity|split; [change (str "258") with (dec 258); apply dec_ok|split; [lia|vm_compute; reflexivity]]]|].
  split; [vm_compute; reflexivity|]. eexists _, _, _, _. split; [vm_compute; reflexivity|]. split; [split; [reflexivity|split; [reflexivity|split; [vm_compute; reflexivity|vm_compute; reflexivity]]]|].
  split; [vm_compute; reflexivity|vm_compute; reflexivity].
Qed.
Example C96_connections : exists s1 r s2 s3 p a,
  connect ntop0 5 C96_own (mkaddr 2 0x5000 (Some [9; 9; 9; 9])) false C96_empty = Done s1 r None /\ ~ In 5%Z (map fst (sockets C96_empty)) /\
  step (Send 5 (str "x")) s1 = Ok s2 (Sent 1) /\ map (fun p => (p_from p, p_to p)) (outgoing s2) = [(str "10.0.0.1:8080", str "9.9.9.9:80")] /\
  accept pton0 ntop0 C96_own true 6 (Some C96_before) (put_incoming (str "1.2.3.4:5") (str "*") [] C96_empty) = Done s3 (Opened 6 p) (Some a) /\ stands_for a [1; 2; 3; 4] 5.
Proof.
  eexists _, _, _, _, _, _. split; [vm_compute; reflexivity|]. split; [intros []|]. split; [vm_compute; reflexivity|]. split; [vm_compute; reflexivity|]. split; [vm_compute; reflexivity|].
  split; [reflexivity|split; [reflexivity|split; [vm_compute; reflexivity|vm_compute; reflexivity]]].
Qed.
(** connect, accept and recvfrom wait exactly if the socket blocks and no packet is for its own address *)
Theorem C96_waits : forall pton ntop own dest fd block len a s t t', iport_tostring ntop own = Some t -> iport_tostring ntop dest = Some t' -> GlobSpec.cstr t -> Forall (fun p => GlobSpec.cstr (p_to p)) (incoming s) ->
  let nothing := block = true /\ forall q, In q (incoming s) -> ~ GlobSpec.glob false (p_to q) t in
  (connect ntop fd own dest block s = Waiting <-> nothing) /\ (accept pton ntop own block fd a s = Waiting <-> nothing) /\ (recvfrom pton ntop own block len a s = Waiting <-> nothing).
Proof. exact waits. Qed.
Print Assumptions C96_waits.
Example C96_waits_case : iport_tostring ntop0 C96_own = Some (str "10.0.0.1:8080") /\ connect ntop0 5 C96_own C96_own true C96_empty = Waiting /\
  recvfrom pton0 ntop0 C96_own true 10 (Some C96_before) (put_incoming (str "1.2.3.4:5") (str "10.0.0.2:*") (str "hi") C96_empty) = Waiting.
Proof. repeat split; vm_compute; reflexivity. Qed.
(** nobody asks who sent it: a null address is legal, but the call writes through it *)
Theorem C96_null_refuted : exists own s, stands_for own [10; 0; 0; 1] 8080 /\ map p_data (incoming s) = [str "hi"] /\
  (forall block, recvfrom pton0 ntop0 own block 10 None s = Null) /\ (forall block fd, accept pton0 ntop0 own block fd None s = Null).
Proof.
  exists C96_own, (put_incoming (str "1.2.3.4:5") (str "*") (str "hi") C96_empty). split; [split; [reflexivity|split; [reflexivity|split; [vm_compute; reflexivity|vm_compute; reflexivity]]]|].
  split; [vm_compute; reflexivity|]. split; intros; vm_compute; reflexivity.
Qed.
Print Assumptions C96_null_refuted.
(** a name instead of four numbers is not looked up: the caller finds the address they had before *)
Theorem C96_name_refuted : exists s1 p a, recvfrom pton0 ntop0 C96_own true 10 (Some (mkaddr 2 0 (Some [7; 7; 7; 7]))) (put_incoming (str "127.1:5") (str "*") (str "hi") C96_empty) = Done s1 (Got p) (Some a) /\
  p_from p = str "127.1:5" /\ stands_for a [7; 7; 7; 7] 5.
Proof. eexists _, _, _. split; [vm_compute; reflexivity|]. split; [vm_compute; reflexivity|]. split; [reflexivity|split; [reflexivity|split; [vm_compute; reflexivity|vm_compute; reflexivity]]]. Qed.
Print Assumptions C96_name_refuted.
