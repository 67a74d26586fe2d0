(** C104: what -h prints agrees with what the command line does. *)
From Coq Require Import List NArith Bool Arith.
From Verif Require Import Base OptionModel OptionSpec UsageModel UsageSpec UsageProofs UsageProofs2.
Import ListNotations.
Local Open Scope N_scope.

(** Whatever follows -h, something is printed. *)
Theorem C104_prints : forall v d r rest, exists p, help v d r rest = Some p.
Proof. exact prints. Qed.
Print Assumptions C104_prints.

(** Every line of the table is 80 characters wide. *)
Theorem C104_aligned : forall v d r rest p, table v d r rest p -> forall l, In l (body p) -> width l = 80%nat.
Proof. exact shape. Qed.
Print Assumptions C104_aligned.

(** The letters listed are exactly those that mean something. *)
Theorem C104_letters : forall v d r rest p, table v d r rest p -> forall c, In c (listed p) <-> exists path j more s, step path c j more s <> (Done s, j, more).
Proof. exact letters_ok. Qed.
Print Assumptions C104_letters.

(** No letter is listed twice. *)
Theorem C104_once : forall v d r rest p, table v d r rest p -> NoDup (listed p).
Proof. exact once. Qed.
Print Assumptions C104_once.

(** A letter without an argument in the table leaves all that follows it to other switches; one with an argument does not. *)
Theorem C104_arguments : forall v d r rest p, table v d r rest p -> forall c, In c (listed p) -> c <> 104 -> c <> 63 ->
  (takes p c = false <-> forall path j more s, snd (fst (step path c j more s)) = j /\ snd (step path c j more s) = more).
Proof. exact arguments_ok. Qed.
Print Assumptions C104_arguments.

(** The number given in the table is the one set without a number. *)
Theorem C104_given : forall v d r rest p, table v d r rest p -> forall c n, given p c = Some n ->
  forall path more s, dashed more -> exists k, step path c [] more s = (Done (set s k (VN n)), [], more).
Proof. exact defaults_ok. Qed.
Print Assumptions C104_given.

(** -v without a number is no less than any of the levels explained. *)
Theorem C104_verbose : forall v d r rest p, table v d r rest p ->
  snd (fst (row p 118)) = str "  [n=max]  " /\ forall w n, In w (cut 32 (snd (row p 118))) -> In n (flat_map (cut 47) (removelast (cut 58 w))) -> forallb ten n = true ->
  forall path s more, dashed more -> exists m, number_from 0 n <= m /\ step path 118 [] more s = (Done (set s Kverbose (VN m)), [], more).
Proof. exact verbose_max. Qed.
Print Assumptions C104_verbose.

(** -l takes the types explained and what is short for one of them, no others. *)
Theorem C104_lists : forall v d r rest p, table v d r rest p -> forall t, taken list_word t <-> exists n, abbrev (types p 108) t n.
Proof. exact lists_ok. Qed.
Print Assumptions C104_lists.

(** So does -S, read as a shell reads them. *)
Theorem C104_quotes : forall v d r rest p, table v d r rest p -> forall t, taken quote_word t <-> exists n, abbrev (types p 83) t n.
Proof. exact quotes_ok. Qed.
Print Assumptions C104_quotes.

(** -h i and -h e explain what -i and -e take before an equals sign. *)
Theorem C104_fields : forall v d r t rest p, In t [str "i"; str "e"] -> help v d r (t :: rest) = Some p ->
  forall (incl : bool) a x, ~ In 61 a -> (length a < 64)%nat ->
  (taken (pattern (if incl then include_keys else exclude_keys)) (a ++ 61 :: x) <-> exists n, abbrev (before_equals p) a n).
Proof. exact fields_ok. Qed.
Print Assumptions C104_fields.

(** -h W explains what -W takes, and double_free. *)
Theorem C104_warnings : forall v d r rest p, help v d r (str "W" :: rest) = Some p ->
  forall t, taken warning_word t <-> exists n, abbrev (filter (fun w => negb (bytes_eqb w (str "double_free"))) (explained p)) t n.
Proof. exact warning_words. Qed.
Print Assumptions C104_warnings.

(** -W refuses one of the words explained. *)
Theorem C104_double_free_refuted : forall v d r rest p, help v d r (str "W" :: rest) = Some p -> exists t, In t (explained p) /\ refused warning_word t.
Proof. exact double_free. Qed.
Print Assumptions C104_double_free_refuted.

(** -s refuses one of the words in the table and takes one that is not there. *)
Theorem C104_alphabet_refuted : forall v d r rest p, table v d r rest p ->
  (exists t, In t (slashed p 115) /\ refused shuffle_word t) /\ (exists t, taken shuffle_word t /\ forall w, In w (slashed p 115) -> ~ ci_prefix t w).
Proof. exact alphabet. Qed.
Print Assumptions C104_alphabet_refuted.

(** -F without a number is said to be the greatest, up to 3 are explained, and is 0. *)
Theorem C104_fold_refuted : forall v d r rest p, table v d r rest p ->
  snd (fst (row p 70)) = str "  [n=max]  " /\ In (str "3:single") (cut 32 (snd (row p 70))) /\ forall path s, step path 70 [] [] s = (Done (set s Kfold_json (VN 0)), [], []).
Proof. exact fold_max. Qed.
Print Assumptions C104_fold_refuted.

(** *** concrete cases *)
Definition ex_table : bytes := match help (str "5.19") (str "2023-07-02") (str "git-1") [] with Some p => p | None => [] end.
Definition ex_fields : bytes := match help [] [] [] [str "i"] with Some p => p | None => [] end.
Definition ex_warnings : bytes := match help [] [] [] [str "W"] with Some p => p | None => [] end.
Example C104_table_case : one_line (str "5.19") (str "2023-07-02") (str "git-1") /\ ~ In (hd [] []) topics /\ help (str "5.19") (str "2023-07-02") (str "git-1") [] = Some ex_table.
Proof.
  split; [|split; [|reflexivity]].
  - unfold one_line. vm_compute. intuition discriminate.
  - vm_compute. intuition discriminate.
Qed.
Example C104_other_topic_case : help [] [] [] [str "x"] = help [] [] [] [] /\ help [] [] [] [str "-h"; str "i"] = help [] [] [] [] /\ help [] [] [] [str "e"] = help [] [] [] [str "i"].
Proof. repeat split; vm_compute; reflexivity. Qed.
Example C104_letters_case : listed ex_table = str "bcCdfFielmoprsSvxWh?".
Proof. vm_compute. reflexivity. Qed.
Example C104_takes_case : map (takes ex_table) (str "bcoW") = [true; false; true; true].
Proof. vm_compute. reflexivity. Qed.
Example C104_given_case : given ex_table 98 = Some 1 /\ given ex_table 114 = Some 2 /\ given ex_table 118 = None /\ dashed [str "-c"].
Proof. repeat split; try (vm_compute; reflexivity). exists (str "c"). reflexivity. Qed.
Example C104_types_case : types ex_table 108 = [str "suite"; str "case"; str "todo"; str "tags"] /\ types ex_table 83 = [[39]; str "single"; [34]; str "double"; [92; 34]].
Proof. split; vm_compute; reflexivity. Qed.
Example C104_fields_case : before_equals ex_fields = [str "file"; str "suite"; str "case"; str "tags"].
Proof. vm_compute. reflexivity. Qed.
Example C104_warnings_case : explained ex_warnings = [str "exception"; str "uncaught"; str "leak"; str "violate"; str "double_free"; str "asymmetric_free"].
Proof. vm_compute. reflexivity. Qed.
