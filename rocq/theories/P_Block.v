(** C75: the attributes of a BLOCK mean what is written. *)
From Coq Require Import List NArith ZArith Bool Arith Lia.
From Verif Require Import Base MemModel MemcmpModel MemcmpSpec BlockModel BlockSpec BlockProofs BlockProofs2.
Import ListNotations.
Local Open Scope N_scope.

(** attributes separated by commas, each at most once, in any order, with blanks, capital or small *)
Theorem C75_written : forall real is s, reads real -> listed is s -> NoDup (map sort is) ->
  (forall v, In (Limit v) is -> exists n, numeral v n []) -> (forall v, In (Align v) is -> exists n, numeral v n []) -> (forall v, In (Fill v) is -> exists b, pattern v b []) ->
  exists A, block_attributes real s = Some A /\
    (forall v n, In (Limit v) is -> numeral v n [] -> a_limit A = n) /\ ((forall v, ~ In (Limit v) is) -> a_limit A = 2 ^ 48 - 1) /\
    (forall v n, In (Align v) is -> numeral v n [] -> a_align A = n) /\ ((forall v, ~ In (Align v) is) -> a_align A = 8) /\
    (forall v b, In (Fill v) is -> pattern v b [] -> a_fill A = b) /\ ((forall v, ~ In (Fill v) is) -> a_fill A = []) /\
    (a_noleak A = true <-> In Noleak is) /\ (block_unmem s = true <-> In Unmem is).
Proof. exact written_ok. Qed.
Print Assumptions C75_written.
Example C75_written_example :
  listed [Limit (str "0x20"); Noleak; Fill (str "0xC55"); Align (str "64")] (str "Limit = 0x20,noleak , fill=0xC55, ALIGN= 64") /\
  numeral (str "0x20") 32 [] /\ numeral (str "64") 64 [] /\ pattern (str "0xC55") [0x0C; 0x55] [] /\ reads simple_real /\
  block_attributes simple_real (str "Limit = 0x20,noleak , fill=0xC55, ALIGN= 64") = Some (mkattrs 32 64 [0x0C; 0x55] true).
Proof.
  assert (B : blank [32]) by (constructor; [left; reflexivity|constructor]). assert (B0 : blank []) by constructor.
  assert (NV : forall v, forallb (fun c => negb (lower c =? 108) && negb (lower c =? 109) && negb (c =? 44)) v = true -> (match v with [] => False | c :: _ => ~ white c end) -> numeric v).
  { intros v H W. split; [exact W|]. intros c I. rewrite forallb_forall in H. apply H in I. rewrite !andb_true_iff, !negb_true_iff, !N.eqb_neq in I. intuition. }
  assert (W : forall c n, nth_error (str "0123456789ABCDEF") n = Some c -> writes c (Z.of_nat n)) by (intros c n H; exists n; auto).
  split; [|split; [|split; [|split; [|split; [exact simple_reads|reflexivity]]]]].
  - change (str "Limit = 0x20,noleak , fill=0xC55, ALIGN= 64") with ([] ++ (str "Limit" ++ [32] ++ [61] ++ [32] ++ str "0x20") ++ [] ++ [44] ++ [] ++ str "noleak" ++ [32] ++ [44] ++ [32] ++ (str "fill" ++ [] ++ [61] ++ [] ++ str "0xC55") ++ [] ++ [44] ++ [32] ++ (str "ALIGN" ++ [] ++ [61] ++ [32] ++ str "64") ++ []).
    apply l_more; [exact B0|apply s_value; [reflexivity|apply NV; [reflexivity|cbn; lia]|reflexivity|exact B|exact B]|exact B0|].
    apply l_more; [exact B0|apply s_flag; reflexivity|exact B|]. apply l_more; [exact B|apply s_value; [reflexivity|apply NV; [reflexivity|cbn; lia]|reflexivity|exact B0|exact B0]|exact B0|].
    apply l_last; [exact B|apply s_value; [reflexivity|apply NV; [reflexivity|cbn; lia]|reflexivity|exact B0|exact B]|exact B0].
  - apply (n_hex 120 [50; 48] [2; 0]%Z []); [left; reflexivity|discriminate|repeat (apply Forall2_cons; [|]); [apply (W 50 2%nat eq_refl)|apply (W 48 0%nat eq_refl)|constructor]|vm_compute; discriminate|exact I].
  - apply (n_dec [54; 52] []); [discriminate|repeat constructor; discriminate|vm_compute; discriminate|exact I].
  - apply (p_hex 120 [67; 53; 53] [12; 5; 5]%Z _ []); [left; reflexivity|repeat (apply Forall2_cons; [|]); [apply (W 67 12%nat eq_refl)|apply (W 53 5%nat eq_refl)|apply (W 53 5%nat eq_refl)|constructor]|cbn; lia|exact I|reflexivity|repeat constructor|reflexivity].
Qed.

(** any text: the first mention of a name counts, wherever it is *)
Theorem C75_values : forall real s A, reads real -> block_attributes real s = Some A ->
  (~ mentioned (str "limit") s -> a_limit A = 2 ^ 48 - 1) /\ (bare (str "limit") s -> a_limit A = 0) /\ (forall v n r, assigned (str "limit") s v -> numeral v n r -> a_limit A = n) /\
  (~ mentioned (str "align") s -> a_align A = 8) /\ (bare (str "align") s -> a_align A = 0) /\ (forall v n r, assigned (str "align") s v -> numeral v n r -> a_align A = n) /\
  (~ mentioned (str "fill") s -> a_fill A = []) /\ (bare (str "fill") s -> a_fill A = [0]) /\ (forall v b r, assigned (str "fill") s v -> pattern v b r -> a_fill A = b).
Proof. exact values_ok. Qed.
Print Assumptions C75_values.
Theorem C75_flags : forall real s A, block_attributes real s = Some A -> (a_noleak A = true <-> mentioned (str "noleak") s) /\ (block_unmem s = true <-> mentioned (str "unmem") s).
Proof. exact (fun real s A H => conj (flags_ok real s A H) (unmem_ok s)). Qed.
Print Assumptions C75_flags.
Example C75_values_example : assigned (str "fill") (str "refill = 513;") (str "513;") /\ pattern (str "513;") [1; 2] (str ";") /\
  block_attributes simple_real (str "refill = 513; NoLeak") = Some (mkattrs (2 ^ 48 - 1) 8 [1; 2] true).
Proof.
  split; [|split; [|reflexivity]].
  - exists (str "re"), [32], [32]. split; [|split; [constructor; [left; reflexivity|constructor]|split; [constructor; [left; reflexivity|constructor]|cbn; lia]]]. split; [exists (str "fill"); split; reflexivity|].
    intros a b c W E. destruct a as [|x [|y a]]; [|  |cbn; lia]; exfalso; pose proof (worded_length _ _ W) as L; destruct b as [|b1 [|b2 [|b3 [|b4 [|]]]]]; try discriminate L; inversion E; subst; discriminate W.
  - apply (p_dec [53; 49; 51] [1; 2] [59]); [discriminate|repeat constructor; discriminate|reflexivity|cbn; lia|right; left; split; [reflexivity|discriminate]|repeat constructor|reflexivity].
Qed.

(** refuted: a name within another word counts, and without a value means 0: nothing can be allocated *)
Theorem C75_word_refuted : exists s, s = str "unlimited" /\ forall real, reads real -> exists A, block_attributes real s = Some A /\ a_limit A = 0.
Proof.
  exists (str "unlimited"). split; [reflexivity|]. intros real (R & _). unfold block_attributes, keyed.
  change (SockModel.get_keyvalue (str "unlimited") (str "limit")) with (Some (@nil N)). change (SockModel.get_keyvalue (str "unlimited") (str "align")) with (@None bytes). change (SockModel.get_keyvalue (str "unlimited") (str "fill")) with (@None bytes).
  cbv iota. rewrite R. eexists. split; reflexivity.
Qed.
Print Assumptions C75_word_refuted.
(** refuted: the value may be an expression *)
Theorem C75_expression_refuted : exists s, s = str "limit=10*1024" /\ forall real, reads real -> exists A, block_attributes real s = Some A /\ a_limit A = 10.
Proof.
  exists (str "limit=10*1024"). split; [reflexivity|]. intros real (_ & R). unfold block_attributes, keyed.
  change (SockModel.get_keyvalue (str "limit=10*1024") (str "limit")) with (Some (str "10*1024")). change (SockModel.get_keyvalue (str "limit=10*1024") (str "align")) with (@None bytes). change (SockModel.get_keyvalue (str "limit=10*1024") (str "fill")) with (@None bytes).
  cbv iota. rewrite (R (str "10*1024") 10 (str "*1024")); [eexists; split; reflexivity|]. apply (n_dec [49; 48] (str "*1024")); [discriminate|repeat constructor; discriminate|vm_compute; discriminate|cbn; lia].
Qed.
Print Assumptions C75_expression_refuted.
(** refuted: a fill pattern may be of any length: more than 32 bytes overrun the buffer *)
Theorem C75_overrun_refuted : exists d ds, Forall2 writes d ds /\ length d = 66%nat /\ forall real, block_attributes real (str "fill=0x" ++ d) = None.
Proof.
  exists (repeat 65 66), (repeat 10%Z 66). split; [|split; [reflexivity|intros real; vm_compute; reflexivity]].
  assert (W : writes 65 10) by (exists 10%nat; split; [reflexivity|right; reflexivity]). generalize 66%nat. intros n. induction n as [|n IH]; [constructor|]. cbn [repeat]. constructor; [exact W|exact IH].
Qed.
Print Assumptions C75_overrun_refuted.
