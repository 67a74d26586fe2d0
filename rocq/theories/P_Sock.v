(** C49: hijacked sockets. *)
From Coq Require Import List NArith ZArith Bool Arith Sorting.Permutation.
From Verif Require Import Base FilterModel GlobSpec SockModel SockSpec SockProofs SockProofs2.
Import ListNotations.
Local Open Scope N_scope.

(** what Ptx fetches, and then what is still to be fetched, are the packets sent, in the order sent *)
Theorem C49_sent : forall s l s', runs (start s) l s' -> exists x, sends (sockets s) l x /\ x = map (fun p => (p_from p, (p_to p, p_data p))) (fetched l ++ outgoing s').
Proof. exact start_send. Qed.
Print Assumptions C49_sent.
(** the packets injected are those received, those without data that opened a connection and those still pending: each is one of them once *)
Theorem C49_conserved : forall s l s', runs (start s) l s' -> exists nw, Forall2 carries (injected l) nw /\ NoDup nw /\ Permutation nw (received l ++ openers l ++ incoming s').
Proof. exact start_in. Qed.
Print Assumptions C49_conserved.
(** only by sockets whose address the pattern selects *)
Theorem C49_selected : forall s l s', runs (start s) l s' -> texts l -> forall o r, In (o, r) l ->
  (forall loc b n p, (o = Recv loc b n \/ o = Recvfrom loc b n) -> r = Got p -> glob false (p_to p) loc) /\
  (forall fd loc b d p, (o = Accept loc b fd \/ o = Connect fd loc b d) -> (r = Opened fd p \/ r = Linked p) -> glob false (p_to p) loc).
Proof. exact start_to. Qed.
Print Assumptions C49_selected.
(** without connections, what is received at an address is in the order of injection *)
Theorem C49_order : forall s l s' loc, runs (start s) l s' -> datagrams l -> exists nw, Forall2 carries (injected l) nw /\ sublist (received_at loc l) nw.
Proof. exact start_order. Qed.
Print Assumptions C49_order.
(** a receive takes the first pending packet for it; it returns nothing or waits only if there is none *)
Theorem C49_first : forall loc block len s, cstr loc -> Forall (fun p => cstr (p_to p)) (incoming s) ->
  match step (Recv loc block len) s with
  | Ok s' (Got p) => exists b c, incoming s = b ++ p :: c /\ incoming s' = b ++ c /\ glob false (p_to p) loc /\ (length (p_data p) <= len)%nat /\ forall q, In q b -> ~ glob false (p_to q) loc
  | Ok s' r => r = Zero /\ s' = s /\ block = false /\ forall q, In q (incoming s) -> ~ glob false (p_to q) loc
  | Waits => block = true /\ forall q, In q (incoming s) -> ~ glob false (p_to q) loc
  | Overruns => exists b p c, incoming s = b ++ p :: c /\ glob false (p_to p) loc /\ (len < length (p_data p))%nat /\ forall q, In q b -> ~ glob false (p_to q) loc
  end.
Proof. exact recv_first. Qed.
Print Assumptions C49_first.
(** the data of the packet that opened a connection are received next at that address *)
Theorem C49_accept : forall loc block fd s s1 p b len, step (Accept loc block fd) s = Ok s1 (Opened fd p) -> p_data p <> [] -> (length (p_data p) <= len)%nat -> exists s2, step (Recv loc b len) s1 = Ok s2 (Got p).
Proof. exact accept_recv. Qed.
Print Assumptions C49_accept.
(** a packet injected without a sender comes from where the last packet went *)
Theorem C49_reply : forall s l s1 to data s2 r, runs (start s) l s1 -> step (Inject [] to data) s1 = Ok s2 r ->
  exists x p, sends (sockets s) l x /\ incoming s2 = incoming s1 ++ [p] /\ p_to p = to /\ p_data p = data /\ p_from p = last_dest x (str "0.0.0.0:0").
Proof. exact start_reply. Qed.
Print Assumptions C49_reply.
(** "from = A, to = B": spaces and quotes do not matter *)
Theorem C49_attributes : forall w1 v1 w2 w3 v2, Forall (fun c => isspace c = true) w1 -> Forall (fun c => isspace c = true) w2 -> Forall (fun c => isspace c = true) w3 ->
  Forall (fun c => of_address c = true \/ isspace c = true \/ c = 34) v1 -> Forall (fun c => of_address c = true \/ isspace c = true \/ c = 34) v2 ->
  filter of_address v1 <> [] -> filter of_address v2 <> [] -> (length (filter of_address v1) <= 255)%nat -> (length (filter of_address v2) <= 255)%nat ->
  inject (str "from" ++ w1 ++ str "=" ++ v1 ++ str "," ++ w2 ++ str "to" ++ w3 ++ str "=" ++ v2) = Some (filter of_address v1, filter of_address v2).
Proof. exact inject_addresses. Qed.
Print Assumptions C49_attributes.
(** an attribute that is not named has its default: nobody sends, everybody receives *)
Theorem C49_unnamed : forall s,
  (~ (exists a b c, s = a ++ b ++ c /\ fold_str true b = fold_str true (str "from")) -> forall f t, inject s = Some (f, t) -> f = []) /\
  (~ (exists a b c, s = a ++ b ++ c /\ fold_str true b = fold_str true (str "to")) -> forall f t, inject s = Some (f, t) -> t = str "*") /\
  (~ (exists a b c, s = a ++ b ++ c /\ fold_str true b = fold_str true (str "from")) -> ~ (exists a b c, s = a ++ b ++ c /\ fold_str true b = fold_str true (str "to")) -> inject s = Some ([], str "*")).
Proof. exact inject_unnamed. Qed.
Print Assumptions C49_unnamed.

Definition empty : net := {| incoming := []; outgoing := []; sockets := []; last_to := []; fresh := 0 |}.
Definition pk (n : nat) (f t d : bytes) : packet := {| pid := n; p_from := f; p_to := t; p_data := d |}.
(** two servers, a packet for both, one for the second; an answer without a sender *)
Definition run1 : list (op * res) :=
  [(Inject (str "9.9.9.9:9") (str "2.2.2.2:*") (str "one"), Nothing); (Inject (str "8.8.8.8:8") (str "*") (str "two"), Nothing);
   (Recv (str "1.1.1.1:1") false 10, Got (pk 1 (str "8.8.8.8:8") (str "*") (str "two"))); (Sendto (str "1.1.1.1:1") (str "8.8.8.8:8") (str "ok"), Sent 2);
   (Inject [] (str "2.?.2.2:2") (str "three"), Nothing); (Recv (str "2.2.2.2:2") true 10, Got (pk 0 (str "9.9.9.9:9") (str "2.2.2.2:*") (str "one")));
   (Recvfrom (str "2.2.2.2:2") true 10, Got (pk 3 (str "8.8.8.8:8") (str "2.?.2.2:2") (str "three"))); (Recv (str "2.2.2.2:2") false 10, Zero);
   (Fetch, Fetched (Some (pk 2 (str "1.1.1.1:1") (str "8.8.8.8:8") (str "ok")))); (Fetch, Fetched None)].
Example C49_example : (exists s, runs (start empty) run1 s) /\ datagrams run1 /\ texts run1 /\ map p_data (received_at (str "2.2.2.2:2") run1) = [str "one"; str "three"].
Proof.
  split; [eexists; unfold run1; repeat (eapply Run_step; [vm_compute; reflexivity|]); apply Run_nil|]. split; [repeat constructor|]. split; [|reflexivity]. unfold texts, run1. repeat (constructor; [cbn [fst]; try exact I; repeat (constructor; [discriminate|]); try constructor|]). constructor.
Qed.
Example C49_example_attributes : inject (str "from = ""1.2.3.4:5"", TO=*:80") = Some (str "1.2.3.4:5", str "*:80") /\ inject (str "") = Some ([], str "*") /\ inject (str "from=1.1.1.1:1") = Some (str "1.1.1.1:1", str "*").
Proof. vm_compute. auto. Qed.
(** a connection: the packet that opens it has data *)
Definition run2 : list (op * res) :=
  [(Inject (str "5.5.5.5:5") (str "*") (str "hi"), Nothing); (Accept (str "1.1.1.1:1") true 7, Opened 7 (pk 0 (str "5.5.5.5:5") (str "*") (str "hi")));
   (Send 7 (str "hello"), Sent 5); (Recv (str "1.1.1.1:1") true 4, Got (pk 0 (str "5.5.5.5:5") (str "*") (str "hi")))].
Example C49_example_accept : exists s, runs (start empty) run2 s /\ outgoing s = [pk 1 (str "1.1.1.1:1") (str "5.5.5.5:5") (str "hello")].
Proof. eexists. split; [unfold run2; repeat (eapply Run_step; [vm_compute; reflexivity|]); apply Run_nil|reflexivity]. Qed.

(** a packet longer than the buffer is written behind it *)
Theorem C49_short_buffer_refuted : forall s, step (Recv (str "1.1.1.1:1") true 2) (put_incoming (str "9.9.9.9:9") (str "*") (str "abc") (start s)) = Overruns.
Proof. intro s. vm_compute. reflexivity. Qed.
Print Assumptions C49_short_buffer_refuted.
(** with connections the order of injection is not kept: the packet accepted at one address is moved in front of those injected before, and a socket of another address gets it *)
Theorem C49_accept_order_refuted : exists l s, runs (start empty) l s /\ texts l /\ map (fun x => snd (snd x)) (injected l) = [str "first"; str "second"] /\ map p_data (received_at (str "2.2.2.2:2") l) = [str "second"; str "first"].
Proof.
  exists [(Inject (str "9.9.9.9:9") (str "2.2.2.2:2") (str "first"), Nothing); (Inject (str "9.9.9.9:9") (str "*") (str "second"), Nothing);
    (Accept (str "1.1.1.1:1") true 7, Opened 7 (pk 1 (str "9.9.9.9:9") (str "*") (str "second")));
    (Recv (str "2.2.2.2:2") true 10, Got (pk 1 (str "9.9.9.9:9") (str "*") (str "second"))); (Recv (str "2.2.2.2:2") true 10, Got (pk 0 (str "9.9.9.9:9") (str "2.2.2.2:2") (str "first")))].
  eexists. split; [repeat (eapply Run_step; [vm_compute; reflexivity|]); apply Run_nil|]. split; [|split; reflexivity]. unfold texts. repeat (constructor; [cbn [fst]; try exact I; repeat (constructor; [discriminate|]); try constructor|]). constructor.
Qed.
Print Assumptions C49_accept_order_refuted.
(** a descriptor connected a second time still sends to its first peer, even in the next case *)
Theorem C49_stale_peer_refuted : exists l s l' s', runs (start empty) l s /\ runs (start s) l' s' /\ sends (sockets empty) l [(str "1.1.1.1:1", (str "2.2.2.2:2", str "a"))] /\ l' = [(Inject [] (str "*") [], Nothing); (Connect 5 (str "3.3.3.3:3") true (str "4.4.4.4:4"), Linked (pk 2 (str "0.0.0.0:0") (str "*") [])); (Send 5 (str "b"), Sent 1)] /\
  map (fun p => (p_to p, p_data p)) (outgoing s') = [(str "2.2.2.2:2", str "b")].
Proof.
  exists [(Inject [] (str "*") [], Nothing); (Connect 5 (str "1.1.1.1:1") true (str "2.2.2.2:2"), Linked (pk 0 (str "0.0.0.0:0") (str "*") [])); (Send 5 (str "a"), Sent 1)].
  eexists. exists [(Inject [] (str "*") [], Nothing); (Connect 5 (str "3.3.3.3:3") true (str "4.4.4.4:4"), Linked (pk 2 (str "0.0.0.0:0") (str "*") [])); (Send 5 (str "b"), Sent 1)]. eexists. split; [repeat (eapply Run_step; [vm_compute; reflexivity|]); apply Run_nil|]. split; [repeat (eapply Run_step; [vm_compute; reflexivity|]); apply Run_nil|]. split; [|split; reflexivity].
  apply Sd_other; [discriminate|discriminate|]. apply Sd_other; [discriminate|discriminate|]. apply (Sd_send _ 5%Z _ _ _ _ (str "1.1.1.1:1", str "2.2.2.2:2")); [|apply Sd_nil]. left. exists [], []. split; [reflexivity|contradiction].
Qed.
Print Assumptions C49_stale_peer_refuted.
(** a receive on a non-blocking socket with nothing to receive returns 0, the end of a stream, not the error EWOULDBLOCK *)
Theorem C49_nonblocking_refuted : forall s, step (Recv (str "1.1.1.1:1") false 2) (start s) = Ok (start s) Zero.
Proof. reflexivity. Qed.
Print Assumptions C49_nonblocking_refuted.
(** a blocking receive with nothing to receive waits for ever *)
Theorem C49_blocking_refuted : forall s, step (Recv (str "1.1.1.1:1") true 2) (start s) = Waits.
Proof. reflexivity. Qed.
Print Assumptions C49_blocking_refuted.
