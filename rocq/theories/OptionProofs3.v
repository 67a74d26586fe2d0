(** Command lines: initial settings, help, letters without a meaning, refused words. *)
From Coq Require Import List NArith Bool Arith Lia.
From Verif Require Import Base OptionModel OptionSpec OptionProofs OptionProofs2.
Import ListNotations.
Local Open Scope N_scope.

Lemma initial_ok : forall path, exists s, parse_args path [] defaults = Some (Done s) /\ (forall k v, In (k, v) initial -> s k = v) /\ (forall k, In k (map fst initial)).
Proof.
  intros path. exists defaults. split; [reflexivity|]. split.
  - intros k v H. unfold initial in H. repeat (destruct H as [H|H]; [injection H as <- <-; reflexivity|]). destruct H.
  - intros k. destruct k; cbn; tauto.
Qed.
Lemma help_ok : forall path sws args h more s, written sws args -> h = str "-h" \/ h = str "-?" -> (length path <= 245)%nat -> (size [] (args ++ h :: more) <= 255)%nat -> sane s ->
  parse_args path (args ++ h :: more) s = Some (Exit 0).
Proof.
  intros path sws args h more s W Hh LP L SA. apply parse_of_runs; auto. destruct (written_runs path sws args W LP s SA) as (s' & R & _).
  apply runs_append; [destruct Hh as [-> | ->]; eexists; reflexivity|]. exists (Done s'). split; auto.
  exists 1%nat. destruct Hh as [-> | ->]; reflexivity.
Qed.
Lemma unknown_step : forall path c j rest s, ~ In c letters -> step path c j rest s = (Done s, j, rest).
Proof.
  intros path c j rest s H. unfold step.
  assert (E : forall x, In x letters -> (c =? x) = false). { intros x I. apply N.eqb_neq. intros ->. auto. }
  rewrite !E by (cbn; tauto). reflexivity.
Qed.
Lemma unknown_ok : forall path c args s o, ~ In c letters -> (runs path [] ([45; c] :: args) s o <-> runs path [] args s o).
Proof.
  intros path c args s o H. split; intros (f & E).
  - destruct f as [|f]; [discriminate|]. cbn [loop next_option fetch] in E. rewrite unknown_step in E by auto. exists f. auto.
  - exists (S f). cbn [loop next_option fetch]. rewrite unknown_step by auto. auto.
Qed.
Lemma refused_candidate : forall t l, (length l <= 32)%nat -> (forall n, ~ abbrev l t n) -> (length t <= 252)%nat -> (list_sum (map (fun s => (length s + 12)%nat) l) <= 600)%nat -> exists a e, candidate t l = Error a e.
Proof.
  intros t l L A T Z. destruct (candidate t l) as [n|a e|] eqn:E; [exfalso; apply (A n), candidate_found; auto|eauto|]. exfalso.
  unfold candidate in E. replace (32 <? length l)%nat with false in E by (symmetry; apply Nat.ltb_ge; lia).
  assert (G : forall am e, (list_sum (map (fun s => (length s + 12)%nat) e) <= 600)%nat -> (1024 <=? error_length am t e)%nat = false).
  { intros am e B. apply Nat.leb_gt. unfold error_length. assert (Q : (list_sum (map (fun s => length s + 9) e) + 3 * length e = list_sum (map (fun s => length s + 12) e))%nat).
    { clear. induction e as [|x e IH]; auto. cbn [map length]. change (list_sum (?a :: ?b)) with (a + list_sum b)%nat. lia. } destruct am; lia. }
  assert (FB : (list_sum (map (fun s => (length s + 12)%nat) (filter (begins t) l)) <= 600)%nat).
  { etransitivity; [|exact Z]. clear. induction l as [|x l IH]; auto. cbn [filter]. destruct (begins t x); cbn [map]; change (list_sum (?a :: ?b)) with (a + list_sum b)%nat; lia. }
  destruct (filter (begins t) l) as [|m [|m2 r]]; [rewrite G in E by auto; discriminate|discriminate|rewrite G in E by auto; discriminate].
Qed.
Lemma refused_ok : forall path c ws t s, In (c, ws) word_letters -> undashed t -> (length t <= 251)%nat -> (forall n, ~ abbrev ws t n) -> parse_args path [[45; c]; t] s = Some (Exit 255).
Proof.
  intros path c ws t s I U L A.
  assert (C : exists a e, candidate t ws = Error a e). { apply refused_candidate; auto; try lia; cbn in I; destruct I as [I|[I|[I|[]]]]; injection I as <- <-; vm_compute; lia. }
  destruct C as (a & e & C). apply parse_of_runs; [unfold size; cbn [map length]; change (list_sum [?a; ?b]) with (a + (b + 0))%nat; lia|].
  exists 1%nat. cbn [loop next_option fetch]. cbn in I. destruct I as [I|[I|[I|[]]]]; injection I as <- <-; cbn [step N.eqb Pos.eqb]; unfold words; rewrite strings_undashed by auto; cbn [extract_strings fst snd each];
    unfold list_word, shuffle_word, warning_word; (match goal with |- context [candidate t ?l] => replace (candidate t l) with (Error a e) by (symmetry; exact C) end); reflexivity.
Qed.
