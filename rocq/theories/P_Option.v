(** C46, C47: abbreviated words, command line. *)
From Coq Require Import List NArith Bool Arith Lia.
From Verif Require Import Base OptionModel OptionSpec OptionProofs OptionProofs2 OptionProofs3 OptionSpec2 OptionProofs4.
Import ListNotations.
Local Open Scope N_scope.

(** C46: a word is taken exactly if it begins one candidate only (case ignored), and denotes that candidate *)
Theorem C46_found : forall w l n, (length l <= 32)%nat -> (candidate w l = Found n <-> abbrev l w n).
Proof. exact candidate_found. Qed.
Print Assumptions C46_found.
(** otherwise the error lists all candidates if it begins none, and exactly those it begins if it begins several *)
Theorem C46_error : forall w l amb listed, (length l <= 32)%nat -> candidate w l = Error amb listed ->
  (amb = false /\ listed = l /\ Forall (fun x => ~ ci_prefix w x) l) \/
  (amb = true /\ listed = filter (begins w) l /\ (2 <= length listed)%nat /\ forall x, In x listed <-> In x l /\ ci_prefix w x).
Proof. exact candidate_error. Qed.
Print Assumptions C46_error.
Example C46_example : candidate (str "REV") [str "random"; str "name"; str "reverse"] = Found (str "reverse") /\ abbrev [str "random"; str "name"; str "reverse"] (str "REV") (str "reverse") /\
  candidate (str "r") [str "random"; str "name"; str "reverse"] = Error true [str "random"; str "reverse"] /\ candidate (str "x") [str "random"; str "name"] = Error false [str "random"; str "name"].
Proof. split; [vm_compute; reflexivity|]. split; [|split; vm_compute; reflexivity]. apply candidate_found; [cbn; lia|vm_compute; reflexivity]. Qed.
(** the error is undefined exactly if its text and the zero byte behind it do not fit 1024 bytes *)
Theorem C46_fits : forall w l, (length l <= 32)%nat ->
  (candidate w l = CandUndefined <-> (forall n, ~ abbrev l w n) /\ exists amb listed, refusal w l amb listed /\ (1024 <= length (message amb w listed))%nat).
Proof. exact candidate_fits. Qed.
Print Assumptions C46_fits.
Example C46_fits_example : let l := [str "random"; str "reverse"] in length (message false (repeat 120 948) l) = 1023%nat /\ candidate (repeat 120 948) l = Error false l /\ candidate (repeat 120 949) l = CandUndefined /\
  message true (str "r") l = str "ambiguous argument: " ++ [27] ++ str "[31mr" ++ [27] ++ str "[0m, candidates: " ++ [27] ++ str "[32mrandom" ++ [27] ++ str "[0m | " ++ [27] ++ str "[32mreverse" ++ [27] ++ str "[0m".
Proof. repeat split; vm_compute; reflexivity. Qed.
(** a word equal to a candidate that begins another one is refused *)
Theorem C46_equal_refuted : exists w l, In w l /\ candidate w l = Error true l.
Proof. exists (str "tag"), [str "tag"; str "tags"]. split; [left; reflexivity|vm_compute; reflexivity]. Qed.
Print Assumptions C46_equal_refuted.
(** the error text of a long word overruns its buffer *)
Theorem C46_long_refuted : exists w, length w = 1000%nat /\ candidate w [str "random"; str "name"; str "file"; str "reverse"] = CandUndefined.
Proof. exists (repeat 120 1000). split; [apply repeat_length|vm_compute; reflexivity]. Qed.
Print Assumptions C46_long_refuted.

(** C47: parsing ends for every argument vector *)
Theorem C47_terminates : forall path args s, exists o, parse_args path args s = Some o /\ (o = Undefined \/ runs path [] args s o).
Proof. exact parse_runs. Qed.
Print Assumptions C47_terminates.
(** an argument vector followed by another one that begins with a dash means the one, then the other *)
Theorem C47_append : forall path a1 a2 s o, dashed a2 -> (runs path [] (a1 ++ a2) s o <-> exists o1, runs path [] a1 s o1 /\ match o1 with Done s1 => runs path [] a2 s1 o | _ => o = o1 end).
Proof. exact runs_append. Qed.
Print Assumptions C47_append.
(** arguments before the first dash do not matter *)
Theorem C47_ignored : forall path a args s o, undashed a -> (runs path [] (a :: args) s o <-> runs path [] args s o).
Proof. exact ignored. Qed.
Print Assumptions C47_ignored.
(** any list of switches, written in any of the ways of [written] - letters in one argument or in several, numbers attached or
    separate, words abbreviated - leaves in every setting what the switches make of it one after the other *)
Theorem C47_written : forall path sws args s, written sws args -> (length path <= 245)%nat -> (size [] args <= 255)%nat -> sane s ->
  exists s', parse_args path args s = Some (Done s') /\ (forall k, s' k = fold_left (fun v w => effect path w k v) sws (s k)).
Proof. exact written_parse. Qed.
Print Assumptions C47_written.
(** the initial settings are such *)
Theorem C47_defaults : sane defaults.
Proof. exact defaults_sane. Qed.
Print Assumptions C47_defaults.
Definition C47_switches : list sw := [On Kcontinue_assert; Num Kbreak_after_fails (Some (str "3")); Toggle Kcolorful; Pats true [(Suite, str "abc"); (Any, str "foo")]; Num Krun_rounds (Some (str "12")); Warnings [str "leak"; str "uncaught"]].
Definition C47_args : list bytes := [str "-cb3C"; str "-i"; str "Su=abc"; str "foo"; str "-r"; str "12"; str "-W"; str "leak"; str "UNC"].
Ltac in_table := cbn; repeat (first [left; reflexivity | right]).
Example C47_example : written C47_switches C47_args /\ (size [] C47_args <= 255)%nat /\
  (exists s', parse_args (str "a.out") C47_args defaults = Some (Done s') /\
     (s' Kbreak_after_fails, s' Krun_rounds, s' Kcolorful, s' Ksuite_includes, s' Kincludes, s' Kuncaught, s' Kverbose) = (VN 3, VN 12, VB false, VL [str "abc"], VL [str "foo"], VB true, VN 4)).
Proof.
  assert (NUM : forall d, (match d with [] => false | _ => true end) && forallb ten d && (number_from 0 d <=? 2147483647) = true -> numeral d).
  { intros d H. rewrite !andb_true_iff in H. destruct H as ((H1 & H2) & H3). split; [intros ->; discriminate|]. split; auto. apply N.leb_le. auto. }
  assert (U : forall t, negb (hd 0 t =? 45) = true -> undashed t). { intros t H. apply negb_true_iff, N.eqb_neq in H. exact H. }
  assert (AB : forall l w n, (length l <= 32)%nat -> candidate w l = Found n -> abbrev l w n) by (intros l w n L E; apply candidate_found; auto).
  split; [|split; [vm_compute; lia|]].
  - refine (WGroup [On Kcontinue_assert; Num Kbreak_after_fails (Some (str "3"))] [str "c"; str "b3"] (Toggle Kcolorful) (str "C") [] [Pats true [(Suite, str "abc"); (Any, str "foo")]; Num Krun_rounds (Some (str "12")); Warnings [str "leak"; str "uncaught"]] _ _ _ _).
    + constructor; [apply AOn; in_table|]. constructor; [apply (ANum Kbreak_after_fails 98 1); [in_table|apply NUM; vm_compute; reflexivity]|constructor].
    + apply TAttached. apply AToggle. in_table.
    + refine (WGroup [] [] (Pats true [(Suite, str "abc"); (Any, str "foo")]) (str "i") [str "Su=abc"; str "foo"] [Num Krun_rounds (Some (str "12")); Warnings [str "leak"; str "uncaught"]] _ _ _ _); [constructor| |].
      * apply (TPats true).
        -- constructor; [|constructor; [apply PTAny; vm_compute; intuition discriminate|constructor]]. apply (PTField Suite (str "Su") (str "suite") (str "abc")); [apply AB; [cbn; lia|vm_compute; reflexivity]|vm_compute; reflexivity|vm_compute; intuition discriminate|cbn; lia].
        -- constructor; [apply U; reflexivity|]. constructor; [apply U; reflexivity|constructor].
      * refine (WGroup [] [] (Num Krun_rounds (Some (str "12"))) (str "r") [str "12"] [Warnings [str "leak"; str "uncaught"]] _ _ _ _); [constructor| |].
        -- apply (TNum Krun_rounds 114 2); [in_table|apply NUM; vm_compute; reflexivity].
        -- refine (WGroup [] [] (Warnings [str "leak"; str "uncaught"]) (str "W") [str "leak"; str "UNC"] [] [] _ _ _); [constructor| |constructor].
           apply TWarnings.
           ++ constructor; [apply AB; [cbn; lia|vm_compute; reflexivity]|]. constructor; [apply AB; [cbn; lia|vm_compute; reflexivity]|constructor].
           ++ constructor; [apply U; reflexivity|]. constructor; [apply U; reflexivity|constructor].
  - destruct (parse_args (str "a.out") C47_args defaults) as [[s'| |]|] eqn:E; try (vm_compute in E; discriminate). exists s'. split; auto. 
    assert (P : match parse_args (str "a.out") C47_args defaults with Some (Done s') => (s' Kbreak_after_fails, s' Krun_rounds, s' Kcolorful, s' Ksuite_includes, s' Kincludes, s' Kuncaught, s' Kverbose) | _ => (VN 0, VN 0, VN 0, VN 0, VN 0, VN 0, VN 0) end = (VN 3, VN 12, VB false, VL [str "abc"], VL [str "foo"], VB true, VN 4)) by (vm_compute; reflexivity).
    rewrite E in P. exact P.
Qed.
(** the documented class double_free is refused *)
Theorem C47_double_free_refuted : parse_args (str "a.out") [str "-W"; str "double_free"] defaults = Some (Exit 255).
Proof. vm_compute. reflexivity. Qed.
Print Assumptions C47_double_free_refuted.
(** a command line of more than 255 bytes overruns the array kept for it *)
Theorem C47_long_refuted : exists args, args = [str "-i"; repeat 97 252] /\ parse_args (str "a.out") args defaults = Some Undefined.
Proof. eexists. split; [reflexivity|vm_compute; reflexivity]. Qed.
Print Assumptions C47_long_refuted.
(** a separate number behind a cluster goes to the first letter of it that takes one, not to the last *)
Theorem C47_cluster_refuted : exists s1 s2, parse_args (str "a.out") [str "-br"; str "3"] defaults = Some (Done s1) /\ parse_args (str "a.out") [str "-b"; str "-r"; str "3"] defaults = Some (Done s2) /\
  (s1 Kbreak_after_fails, s1 Krun_rounds) = (VN 3, VN 2) /\ (s2 Kbreak_after_fails, s2 Krun_rounds) = (VN 1, VN 3).
Proof. eexists. eexists. split; [vm_compute; reflexivity|]. split; [vm_compute; reflexivity|]. split; vm_compute; reflexivity. Qed.
Print Assumptions C47_cluster_refuted.
(** without arguments every setting keeps its initial value *)
Theorem C47_initial : forall path, exists s, parse_args path [] defaults = Some (Done s) /\ (forall k v, In (k, v) initial -> s k = v) /\ (forall k, In k (map fst initial)).
Proof. exact initial_ok. Qed.
Print Assumptions C47_initial.
(** -h and -? behind any switches leave with success *)
Theorem C47_help : forall path sws args h more s, written sws args -> h = str "-h" \/ h = str "-?" -> (length path <= 245)%nat -> (size [] (args ++ h :: more) <= 255)%nat -> sane s ->
  parse_args path (args ++ h :: more) s = Some (Exit 0).
Proof. exact help_ok. Qed.
Print Assumptions C47_help.
(** letters without a meaning are passed over *)
Theorem C47_unknown : forall path c args s o, ~ In c letters -> (runs path [] ([45; c] :: args) s o <-> runs path [] args s o).
Proof. exact unknown_ok. Qed.
Print Assumptions C47_unknown.
(** a word of -l, -s or -W that is short for none or for several ends the program with 255 *)
Theorem C47_refused : forall path c ws t s, In (c, ws) word_letters -> undashed t -> (length t <= 251)%nat -> (forall n, ~ abbrev ws t n) -> parse_args path [[45; c]; t] s = Some (Exit 255).
Proof. exact refused_ok. Qed.
Print Assumptions C47_refused.
Example C47_more_example : ~ In 122 letters /\ parse_args (str "a.out") [str "-z"; str "-c"; str "-h"] defaults = Some (Exit 0) /\ parse_args (str "a.out") [str "-l"; str "t"] defaults = Some (Exit 255) /\
  (forall n, ~ abbrev (map fst list_bits) (str "t") n).
Proof.
  split; [vm_compute; intuition discriminate|]. split; [vm_compute; reflexivity|]. split; [vm_compute; reflexivity|].
  intros n A. apply candidate_found in A; [vm_compute in A; discriminate|cbn; lia].
Qed.
