(** C88: Ptx. *)
From Coq Require Import List NArith ZArith Bool Arith.
From Verif Require Import Base GlobSpec MemcmpModel SockModel SockSpec FailModel MockmsgModel MockmsgSpec PacketModel PacketSpec PacketProofs PacketProofs2.
Import ListNotations.
Local Open Scope N_scope.

(** the packet judged is the oldest of those sent that no Ptx has judged; if there is none, none is judged *)
Theorem C88_oldest : forall s l s1 c n, runs (start s) l s1 -> exists x, sends (sockets s) l x /\
  match nth_error x (length (fetched l)) with
  | None => ptx c s1 n = match judge c None with Some f => Some (s1, count_assert n, f) | None => None end
  | Some (f, (t, d)) => exists s2 p, p_from p = f /\ p_to p = t /\ p_data p = d /\ step Fetch s1 = Ok s2 (Fetched (Some p)) /\
      ptx c s1 n = match judge c (Some p) with Some r => Some (s2, count_assert n, r) | None => None end
  end.
Proof. exact ptx_order. Qed.
Print Assumptions C88_oldest.
Definition sample : check := mkcheck (str "t.cpp:7") (str "from, to, Me(b, 2), 3") (str "1.1.*:?") (str "*:80") (me_payload (str "ab") 2) (size_is 3).
Example C88_oldest_example : exists l s1, runs (start (start {| incoming := []; outgoing := []; sockets := []; last_to := []; fresh := 0 |})) l s1 /\ fetched l <> [] /\
  (exists s2, ptx sample s1 (1, 2, 3)%Z = Some (s2, (2, 3, 4)%Z, None)).
Proof.
  exists [(Sendto (str "1.1.1.1:1") (str "2.2.2.2:80") (str "xy"), Sent 2); (Sendto (str "1.1.1.1:1") (str "2.2.2.2:80") (str "abc"), Sent 3); (Fetch, Fetched (Some {| pid := 0; p_from := str "1.1.1.1:1"; p_to := str "2.2.2.2:80"; p_data := str "xy" |}))].
  eexists. split; [repeat (eapply Run_step; [vm_compute; reflexivity|]); apply Run_nil|]. split; [discriminate|]. eexists. vm_compute. reflexivity.
Qed.
(** it passes exactly when both addresses match, and payload and length are as their matchers want *)
Theorem C88_passes : forall c p said, addressed c (p_from p) (p_to p) -> N.of_nat (length (p_data p)) < 2147483648 -> c_payload c (p_data p ++ [0]) = Some said -> plain (c_text c) ->
  (judge c (Some p) = Some None <-> glob false (c_from c) (p_from p) /\ glob false (c_to c) (p_to p) /\ said = [] /\ c_size c (Z.of_nat (length (p_data p))) = []).
Proof. exact judge_passes. Qed.
Print Assumptions C88_passes.
(** with a number for the size, the length must be exactly that *)
Theorem C88_size : forall c p said n, addressed c (p_from p) (p_to p) -> N.of_nat (length (p_data p)) < 2147483648 -> c_payload c (p_data p ++ [0]) = Some said -> plain (c_text c) -> c_size c = size_is n ->
  (judge c (Some p) = Some None <-> glob false (c_from c) (p_from p) /\ glob false (c_to c) (p_to p) /\ said = [] /\ Z.of_nat (length (p_data p)) = n).
Proof. exact size_exact. Qed.
Print Assumptions C88_size.
Example C88_size_example : c_size (mkcheck [] [] (str "*") (str "*") (me_payload (str "ab") 2) (size_is 3)) = size_is 3 /\
  map (fun d => judge (mkcheck [] [] (str "*") (str "*") (me_payload (str "ab") 2) (size_is 3)) (Some {| pid := 0; p_from := str "1.1.1.1:1"; p_to := str "2.2.2.2:80"; p_data := d |})) [str "abc"] = [Some None] /\
  judge (mkcheck [] [] (str "*") (str "*") (me_payload (str "ab") 2) (size_is 3)) (Some {| pid := 0; p_from := str "1.1.1.1:1"; p_to := str "2.2.2.2:80"; p_data := str "abcd" |}) <> Some None.
Proof. split; [reflexivity|]. split; vm_compute; [reflexivity|discriminate]. Qed.
Definition packet_of (f t d : bytes) : packet := {| pid := 0; p_from := f; p_to := t; p_data := d |}.
Example C88_passes_example : judge sample (Some (packet_of (str "1.1.1.1:1") (str "2.2.2.2:80") (str "abc"))) = Some None /\ judge sample (Some (packet_of (str "1.1.1.1:1") (str "2.2.2.2:81") (str "abc"))) <> Some None.
Proof. split; [vm_compute; reflexivity|vm_compute; discriminate]. Qed.
(** otherwise the failure names the parts that are not as expected, these and no others, in this order, each with what its matcher says *)
Theorem C88_parts : forall c p said, addressed c (p_from p) (p_to p) -> N.of_nat (length (p_data p)) < 2147483648 -> c_payload c (p_data p ++ [0]) = Some said -> plain (c_text c) ->
  exists l1 l2 l3 l4, parts c (p_from p) (p_to p) (p_data p) said l1 l2 l3 l4 /\
    ((l1 ++ l2 ++ l3 ++ l4 = [] /\ judge c (Some p) = Some None) \/
     (l1 ++ l2 ++ l3 ++ l4 <> [] /\ exists t, judge c (Some p) = Some (Some (Note None t (c_filine c) (l1 ++ l2 ++ l3 ++ l4))) /\ visible t = str "Outgoing packet unexpected Ptx(" ++ c_text c ++ str ")")).
Proof. exact judge_some. Qed.
Print Assumptions C88_parts.
Example C88_parts_example : exists t, judge sample (Some (packet_of (str "1.1.1.1:1") (str "2.2.2.2:81") (str "abcd"))) = Some (Some (Note None t (str "t.cpp:7") [Note None [str "to address"] [] []; Note None [str "payload length"] [] []])).
Proof. eexists. vm_compute. reflexivity. Qed.
(** nothing was sent: this is said, with the text and the place of the Ptx *)
Theorem C88_missing : forall c, plain (c_text c) -> exists t, judge c None = Some (Some (Note None t (c_filine c) [])) /\ visible t = str "Outgoing packet miss Ptx(" ++ c_text c ++ str ")".
Proof. exact judge_none. Qed.
Print Assumptions C88_missing.
Example C88_missing_example : plain (c_text sample) /\ match judge sample None with Some (Some (Note _ t _ _)) => visible t = str "Outgoing packet miss Ptx(from, to, Me(b, 2), 3)" | _ => False end.
Proof. split; [unfold plain; vm_compute; intuition discriminate|vm_compute; reflexivity]. Qed.
(** a Ptx counts as one assertion *)
Theorem C88_counted : forall c s n s' n' f, ptx c s n = Some (s', n', f) -> exists a b d, n = (a, b, d) /\ n' = (a + 1, b + 1, d + 1)%Z.
Proof. exact ptx_counts. Qed.
Print Assumptions C88_counted.
Example C88_counted_example : exists s' f, ptx sample (start {| incoming := []; outgoing := []; sockets := []; last_to := []; fresh := 0 |}) (0, 5, 7)%Z = Some (s', (1, 6, 8)%Z, f).
Proof. eexists. eexists. vm_compute. reflexivity. Qed.
(** Me with no more bytes than the packet has: the packet begins with these bytes *)
Theorem C88_me : forall b count d, count <> 0 -> 8 * count < 2 ^ 64 -> count <= N.of_nat (length b) -> count <= N.of_nat (length d) -> Forall (fun x => x < 256) b -> Forall (fun x => x < 256) d ->
  exists said, me_payload b count (d ++ [0]) = Some said /\ (said = [] <-> firstn (N.to_nat count) d = firstn (N.to_nat count) b).
Proof. exact me_ok. Qed.
Print Assumptions C88_me.
Example C88_me_example : me_payload (str "ab") 2 (str "abc" ++ [0]) = Some [] /\ me_payload (str "ab") 2 (str "acb" ++ [0]) <> Some [].
Proof. split; [vm_compute; reflexivity|vm_compute; discriminate]. Qed.
(** with more, memory behind the packet is read *)
Theorem C88_short_refuted : exists c p, addressed c (p_from p) (p_to p) /\ p_data p = str "ab" /\ c_payload c = me_payload (str "ab" ++ [0; 0]) 4 /\ judge c (Some p) = None.
Proof.
  exists (mkcheck [] [] (str "*") (str "*") (me_payload (str "ab" ++ [0; 0]) 4) (size_is 2)), (packet_of (str "1.1.1.1:1") (str "2.2.2.2:80") (str "ab")).
  split; [repeat split; unfold cstr; vm_compute; repeat constructor; discriminate|]. split; [reflexivity|]. split; [reflexivity|]. vm_compute. reflexivity.
Qed.
Print Assumptions C88_short_refuted.
(** with fewer, what follows in the packet is not looked at: unless its length is given, a longer packet passes *)
Theorem C88_longer_refuted : exists c p, c_payload c = me_payload (str "ab") 2 /\ (forall z, c_size c z = []) /\ p_data p = str "abc" /\ judge c (Some p) = Some None.
Proof.
  exists (mkcheck [] [] (str "*") (str "*") (me_payload (str "ab") 2) (fun _ => [])), (packet_of (str "1.1.1.1:1") (str "2.2.2.2:80") (str "abc")).
  split; [reflexivity|]. split; [reflexivity|]. split; [reflexivity|]. vm_compute. reflexivity.
Qed.
Print Assumptions C88_longer_refuted.
