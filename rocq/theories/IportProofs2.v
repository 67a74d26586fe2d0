(** A reader and a writer of dotted addresses, for the examples (C96). *)
From Coq Require Import List NArith ZArith Bool Arith Lia.
From Verif Require Import Base JunitModel JunitSpec JunitProofs SockModel IportModel IportSpec IportProofs.
Import ListNotations.
Local Open Scope N_scope.

(** the parts between dots *)
Fixpoint parts (s : bytes) : list bytes :=
  match s with
  | [] => [[]]
  | c :: r => if c =? 46 then [] :: parts r else match parts r with p :: q => (c :: p) :: q | [] => [[c]] end
  end.
(** a number below 256 *)
Definition octet (s : bytes) : option N := find (fun n => if list_eq_dec N.eq_dec (dec n) s then true else false) (map N.of_nat (seq 0 256)).
(** reading (stands for inet_pton, called at source/net/h2_socket.cpp:52) *)
Definition pton0 (s : bytes) : option (list N) :=
  match parts s with
  | [a; b; c; d] => match octet a, octet b, octet c, octet d with Some a, Some b, Some c, Some d => Some [a; b; c; d] | _, _, _, _ => None end
  | _ => None
  end.
(** writing (stands for inet_ntop, called at source/net/h2_socket.cpp:58) *)
Definition ntop0 (ip : list N) : bytes := match ip with [a; b; c; d] => dec a ++ [46] ++ dec b ++ [46] ++ dec c ++ [46] ++ dec d | _ => [] end.

Lemma octet_ok : forall s n, octet s = Some n <-> n < 256 /\ decimal s n.
Proof.
  intros s n. unfold octet. split.
  - intros H. apply find_some in H. destruct H as (I0 & E). apply in_map_iff in I0. destruct I0 as (k & <- & K). apply in_seq in K. destruct (list_eq_dec _ _ _) as [<-|]; [|discriminate]. split; [lia|apply dec_ok].
  - intros (L & D). pose proof (decimal_unique _ _ _ (dec_ok n) D) as E. destruct (find _ _) as [m|] eqn:F.
    + apply find_some in F. destruct F as (_ & E'). destruct (list_eq_dec N.eq_dec (dec m) s) as [X|]; [|discriminate]. f_equal. destruct (dec_ok m) as (_ & V & _), (dec_ok n) as (_ & V' & _). rewrite <- V, <- V', X, E. reflexivity.
    + exfalso. pose proof (find_none _ _ F n) as K. cbv beta in K. destruct (list_eq_dec N.eq_dec (dec n) s) as [_|Z]; [|apply Z, E]. assert (false = true) by (symmetry; apply K; apply in_map_iff; exists (N.to_nat n); split; [apply N2Nat.id|apply in_seq; lia]). discriminate.
Qed.
Lemma parts_one : forall a, ~ In 46 a -> parts a = [a].
Proof. induction a as [|c a IH]; intros H; [reflexivity|]. cbn [parts]. destruct (N.eqb_spec c 46) as [->|]; [exfalso; apply H; left; reflexivity|]. rewrite IH by (intros K; apply H; right; exact K). reflexivity. Qed.
Lemma parts_more : forall a r, ~ In 46 a -> parts (a ++ [46] ++ r) = a :: parts r.
Proof. induction a as [|c a IH]; intros r H; [reflexivity|]. cbn [parts app]. destruct (N.eqb_spec c 46) as [->|]; [exfalso; apply H; left; reflexivity|]. cbn [app] in IH. rewrite IH by (intros K; apply H; right; exact K). reflexivity. Qed.
Lemma parts_join : forall s, exists p q, parts s = p :: q /\ s = p ++ concat (map (fun x => 46 :: x) q).
Proof.
  induction s as [|c s (p & q & E & J)]; [exists [], []; split; reflexivity|]. cbn [parts]. destruct (N.eqb_spec c 46) as [->|].
  - exists [], (parts s). split; [reflexivity|]. rewrite E. cbn [map concat app]. rewrite J at 1. reflexivity.
  - rewrite E. exists (c :: p), q. split; [reflexivity|]. rewrite J at 1. reflexivity.
Qed.
Lemma pton0_ok : reads_dotted pton0.
Proof.
  intros t ip. unfold pton0. split.
  - destruct (parts_join t) as (p & q & E & J). rewrite E. destruct q as [|b [|c [|d [|? ?]]]]; try discriminate. destruct (octet p) as [a'|] eqn:A; [|discriminate]. destruct (octet b) as [b'|] eqn:B; [|discriminate]. destruct (octet c) as [c'|] eqn:C; [|discriminate]. destruct (octet d) as [d'|] eqn:D; [|discriminate].
    intros H. injection H as <-. apply octet_ok in A, B, C, D. exists a', b', c', d', p, b, c, d. split; [reflexivity|]. destruct A, B, C, D. repeat (split; [assumption|]). cbn [map concat] in J. rewrite app_nil_r in J. exact J.
  - intros (a & b & c & d & ta & tb & tc & td & -> & A & B & C & D & DA & DB & DC & DD & ->).
    assert (NO : forall s n, decimal s n -> ~ In 46 s) by (intros s n X; eapply decimal_no; [exact X|lia]).
    rewrite !parts_more, parts_one by (eapply NO; eassumption). rewrite (proj2 (octet_ok ta a)), (proj2 (octet_ok tb b)), (proj2 (octet_ok tc c)), (proj2 (octet_ok td d)) by (split; assumption). reflexivity.
Qed.
Lemma ntop0_ok : writes_dotted ntop0.
Proof. intros a b c d A B C D. exists a, b, c, d, (dec a), (dec b), (dec c), (dec d). split; [reflexivity|]. repeat (split; [assumption|]). repeat (split; [apply dec_ok|]). reflexivity. Qed.
