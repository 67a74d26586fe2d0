(** Proofs about Ptx. *)
From Coq Require Import List NArith ZArith Bool Arith Lia.
From Verif Require Import Base GlobSpec LineModel FilterModel MemcmpModel MemcmpSpec MemcmpProofs MemcmpProofs2 SockModel SockSpec SockProofs FailModel ValueProofs2 MockmsgModel MockmsgSpec MockmsgProofs PacketModel PacketSpec.
Import ListNotations.
Local Open Scope N_scope.

Lemma to_int_small n : (N.of_nat n < 2147483648) -> to_int (N.of_nat n) = Z.of_nat n.
Proof. intro H. unfold to_int. rewrite N.mod_small by lia. destruct (N.ltb_spec (N.of_nat n) 2147483648); lia. Qed.
Lemma title_text what e : ~ In 27 what -> ~ In 27 e -> visible (title what e) = what ++ e ++ str ")".
Proof.
  intros A B. unfold title, printf_words. rewrite !vis_app, vis_word by (apply calm; exact A). rewrite vis_style by reflexivity. change ([e; ?b]) with ([e] ++ [b]). rewrite vis_app, vis_word by (apply calm; exact B). rewrite vis_style by reflexivity. rewrite app_nil_r. reflexivity.
Qed.
Lemma address_part pattern address name : cstr pattern -> cstr address -> part (glob false pattern address) name bare (labelled name (address_fail pattern address)).
Proof.
  intros P A. unfold address_fail. destruct (selects pattern address) eqn:E.
  - apply p_right. apply selects_glob; assumption.
  - cbn [labelled]. eapply p_wrong; [|reflexivity]. intro G. apply selects_glob in G; [congruence|exact P|exact A].
Qed.
Lemma label_part name said : part (said = []) name said (labelled name said).
Proof. destruct said as [|[s e f k] r]; [apply p_right; reflexivity|]. cbn [labelled]. eapply p_wrong; [discriminate|reflexivity]. Qed.
Lemma judge_some c p said : addressed c (p_from p) (p_to p) -> N.of_nat (length (p_data p)) < 2147483648 -> c_payload c (p_data p ++ [0]) = Some said -> plain (c_text c) ->
  exists l1 l2 l3 l4, parts c (p_from p) (p_to p) (p_data p) said l1 l2 l3 l4 /\
    ((l1 ++ l2 ++ l3 ++ l4 = [] /\ judge c (Some p) = Some None) \/
     (l1 ++ l2 ++ l3 ++ l4 <> [] /\ exists t, judge c (Some p) = Some (Some (Note None t (c_filine c) (l1 ++ l2 ++ l3 ++ l4))) /\ visible t = str "Outgoing packet unexpected Ptx(" ++ c_text c ++ str ")")).
Proof.
  intros (A & B & D & E) L P T. cbn [judge]. rewrite P. rewrite to_int_small by exact L.
  exists (labelled (str "from address") (address_fail (c_from c) (p_from p))), (labelled (str "to address") (address_fail (c_to c) (p_to p))), (labelled (str "payload") said), (labelled (str "payload length") (c_size c (Z.of_nat (length (p_data p))))).
  split; [constructor; [apply address_part; assumption|apply address_part; assumption|apply label_part|apply label_part]|].
  set (l := labelled (str "from address") _ ++ _). clearbody l. destruct l as [|x l]; [left; auto|]. right. split; [discriminate|]. eexists. split; [reflexivity|]. apply title_text; [vm_compute; intuition discriminate|exact T].
Qed.
Lemma part_empty ok name said l : part ok name said l -> (l = [] <-> ok).
Proof. intro H. destruct H; split; [auto|auto|discriminate|contradiction]. Qed.
Lemma judge_passes c p said : addressed c (p_from p) (p_to p) -> N.of_nat (length (p_data p)) < 2147483648 -> c_payload c (p_data p ++ [0]) = Some said -> plain (c_text c) ->
  (judge c (Some p) = Some None <-> glob false (c_from c) (p_from p) /\ glob false (c_to c) (p_to p) /\ said = [] /\ c_size c (Z.of_nat (length (p_data p))) = []).
Proof.
  intros A L P T. destruct (judge_some c p said A L P T) as (l1 & l2 & l3 & l4 & [Q1 Q2 Q3 Q4] & R).
  apply part_empty in Q1, Q2, Q3, Q4. rewrite <- Q1, <- Q2, <- Q3, <- Q4. destruct R as [(E & J)|(E & t & J & _)]; rewrite J.
  - apply app_eq_nil in E. destruct E as (E1 & E). apply app_eq_nil in E. destruct E as (E2 & E). apply app_eq_nil in E. destruct E as (E3 & E4). tauto.
  - split; [discriminate|]. intros (-> & -> & -> & ->). contradiction.
Qed.
Lemma judge_none c : plain (c_text c) -> exists t, judge c None = Some (Some (Note None t (c_filine c) [])) /\ visible t = str "Outgoing packet miss Ptx(" ++ c_text c ++ str ")".
Proof. intro T. eexists. split; [reflexivity|]. apply title_text; [vm_compute; intuition discriminate|exact T]. Qed.
(** the packet judged is the first of those sent that was not judged yet *)
Lemma ptx_order s l s1 c n : runs (start s) l s1 -> exists x, sends (sockets s) l x /\
  match nth_error x (length (fetched l)) with
  | None => ptx c s1 n = match judge c None with Some f => Some (s1, count_assert n, f) | None => None end
  | Some (f, (t, d)) => exists s2 p, p_from p = f /\ p_to p = t /\ p_data p = d /\ step Fetch s1 = Ok s2 (Fetched (Some p)) /\
      ptx c s1 n = match judge c (Some p) with Some r => Some (s2, count_assert n, r) | None => None end
  end.
Proof.
  intro R. destruct (start_send s l s1 R) as (x & S & E). exists x. split; [exact S|]. subst x. rewrite map_app, nth_error_app2 by (rewrite map_length; apply Nat.le_refl). rewrite map_length, Nat.sub_diag.
  unfold ptx. cbn [step]. destruct (outgoing s1) as [|p r] eqn:O; cbn [map nth_error]; [reflexivity|]. eexists. exists p. split; [reflexivity|]. split; [reflexivity|]. split; [reflexivity|]. split; reflexivity.
Qed.
Lemma ptx_counts c s n s' n' f : ptx c s n = Some (s', n', f) -> exists a b d, n = (a, b, d) /\ n' = (a + 1, b + 1, d + 1)%Z.
Proof.
  intro H. destruct n as [[a b] d]. exists a, b, d. split; [reflexivity|]. unfold ptx in H. cbn [step] in H. destruct (outgoing s); destruct (judge c _); try discriminate; injection H as <- <- <-; reflexivity.
Qed.
Lemma me_ok b count d : count <> 0 -> 8 * count < 2 ^ 64 -> count <= N.of_nat (length b) -> count <= N.of_nat (length d) -> Forall (fun x => x < 256) b -> Forall (fun x => x < 256) d ->
  exists said, me_payload b count (d ++ [0]) = Some said /\ (said = [] <-> firstn (N.to_nat count) d = firstn (N.to_nat count) b).
Proof.
  intros Z S B D F G. unfold me_payload.
  assert (BITS : eff_size count 0 * eff_width 0 1 = 8 * count) by (unfold eff_size, eff_width; destruct (N.eqb_spec count 0); [contradiction|]; change (0 =? 0) with true; cbv iota; apply N.mul_comm).
  pose proof (buffer_spec false b (d ++ [0]) 1 0 count 0) as V. cbv zeta in V. rewrite BITS in V. destruct V as (V & W).
  - intro X. apply Z. revert X. clear. destruct count; [reflexivity|discriminate].
  - exact S.
  - apply N.mul_le_mono_l, B.
  - apply N.mul_le_mono_l. rewrite app_length. cbn [length]. revert D. clear. lia.
  - replace (N.to_nat (8 * count)) with (8 * N.to_nat count)%nat in W by (clear; lia).
    assert (K : same_bits b (d ++ [0]) (8 * N.to_nat count) <-> firstn (N.to_nat count) d = firstn (N.to_nat count) b).
    { assert (X : same_bits b (d ++ [0]) (8 * N.to_nat count) <-> same_bits (firstn (N.to_nat count) b) (d ++ [0]) (8 * N.to_nat count)).
      { unfold same_bits, bit. split; intros H n Hn; specialize (H n Hn); assert (n / 8 < N.to_nat count)%nat by (apply Nat.div_lt_upper_bound; lia).
        - rewrite <- H. rewrite <- (firstn_skipn (N.to_nat count) b) at 2. rewrite app_nth1; [reflexivity|]. rewrite firstn_length. lia.
        - rewrite <- H. rewrite <- (firstn_skipn (N.to_nat count) b) at 1. rewrite app_nth1; [reflexivity|]. rewrite firstn_length. lia. }
      rewrite X. rewrite (same_bytes (firstn (N.to_nat count) b) (d ++ [0]) (N.to_nat count)).
      - unfold begins. rewrite firstn_length, Nat.min_l by lia. rewrite firstn_app. replace (N.to_nat count - length d)%nat with 0%nat by lia. cbn [firstn]. rewrite app_nil_r. reflexivity.
      - rewrite firstn_length. lia.
      - rewrite app_length. lia.
      - apply Forall_forall. intros x Hx. rewrite Forall_forall in F. apply F. rewrite <- (firstn_skipn (N.to_nat count) b). apply in_or_app. auto.
      - apply Forall_app. split; [exact G|]. repeat constructor. }
    cbv iota in W. destruct (me _ _ _ _ _ _) as [v|]; [|contradiction]. destruct v; eexists; (split; [reflexivity|]); unfold bare; rewrite <- K, <- W; split; congruence.
Qed.
