(** Proofs about addresses of connections (C96). *)
From Coq Require Import List NArith ZArith Bool Arith Lia.
From Verif Require Import Base JunitModel JunitSpec JunitProofs SockModel IportModel IportSpec IportProofs.
Import ListNotations.
Local Open Scope N_scope.

Lemma peer_last : forall l fd x, ~ In fd (map fst l) -> peer fd (l ++ [(fd, x)]) = x.
Proof.
  intros l fd x H. unfold peer. induction l as [|(f, y) l IH]; cbn [app find fst]; [rewrite Z.eqb_refl; reflexivity|].
  destruct (Z.eqb_spec f fd) as [->|]; [exfalso; apply H; left; reflexivity|]. apply IH. intros K. apply H. right. exact K.
Qed.
Lemma keep_rest : forall p s, sockets (keep p s) = sockets s /\ outgoing (keep p s) = outgoing s.
Proof. intros p s. unfold keep. destruct (p_data p); split; reflexivity. Qed.
Lemma connected : forall ntop, writes_dotted ntop -> forall fd own dest block s s1 r ad data ip port ip' port', quad ip -> port < 65536 -> stands_for own ip port -> quad ip' -> port' < 65536 -> stands_for dest ip' port' ->
  ~ In fd (map fst (sockets s)) -> connect ntop fd own dest block s = Done s1 r ad ->
  exists s2 p, step (Send fd data) s1 = Ok s2 (Sent (length data)) /\ outgoing s2 = outgoing s ++ [p] /\ address ip port (p_from p) /\ address ip' port' (p_to p) /\ p_data p = data.
Proof.
  intros ntop WD fd own dest block s s1 r ad data ip port ip' port' Q P S0 Q' P' S0' NI C.
  destruct (written ntop WD own ip port Q P S0) as (t & E & A). destruct (written ntop WD dest ip' port' Q' P' S0') as (t' & E' & A').
  unfold connect, with_text in C. rewrite E, E' in C. cbn [step] in C. unfold read_incoming in C. cbn [incoming with_socket] in C.
  assert (G : sockets s1 = sockets s ++ [(fd, (t, t'))] /\ outgoing s1 = outgoing s).
  { destruct (pick t (incoming s)) as [(p, rest)|]; [|destruct block; [discriminate|]]; cbn [plainly] in C; injection C as <- _ _; [|split; reflexivity]. destruct (keep_rest p (with_incoming rest (with_socket (fd, (t, t')) s))) as (-> & ->). split; reflexivity. }
  destruct G as (G1 & G2). cbn [step]. rewrite G1, (peer_last _ _ _ NI). eexists _, _. split; [reflexivity|]. cbn [put_outgoing outgoing]. rewrite G2. split; [reflexivity|]. cbn. split; [exact A|]. split; [exact A'|reflexivity].
Qed.
Lemma served : forall pton ntop, writes_dotted ntop -> forall own block fd a s s1 p ad data ip port, quad ip -> port < 65536 -> stands_for own ip port ->
  ~ In fd (map fst (sockets s)) -> accept pton ntop own block fd (Some a) s = Done s1 (Opened fd p) ad ->
  exists s2 q, step (Send fd data) s1 = Ok s2 (Sent (length data)) /\ outgoing s2 = outgoing s ++ [q] /\ address ip port (p_from q) /\ p_to q = p_from p /\ p_data q = data.
Proof.
  intros pton ntop WD own block fd a s s1 p ad data ip port Q P S0 NI C. destruct (written ntop WD own ip port Q P S0) as (t & E & A).
  unfold accept, with_text in C. rewrite E in C. cbn [step] in C. unfold read_incoming in C.
  destruct (pick t (incoming s)) as [(p0, rest)|]; [|destruct block; discriminate]. cbn [fill] in C. destruct (iport_parse pton (p_from p0) a); [|discriminate]. injection C as <- <- _.
  cbn [step]. destruct (keep_rest p0 (with_socket (fd, (t, p_from p0)) (with_incoming rest s))) as (G1 & G2). rewrite G1. cbn [with_socket with_incoming sockets]. rewrite (peer_last _ _ _ NI). eexists _, _. split; [reflexivity|]. cbn [put_outgoing outgoing]. rewrite G2. split; [reflexivity|]. cbn. split; [exact A|]. split; reflexivity.
Qed.
