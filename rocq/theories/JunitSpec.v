(** What a JUnit report has to say. *)
From Coq Require Import List NArith ZArith Bool Arith.
From Verif Require Import Base RunnerModel RunnerSpec JunitModel XmlSpec.
Import ListNotations.
Local Open Scope N_scope.

(** characters that mean themselves within quotes *)
Definition clean (s : bytes) : Prop := forall c, In c s -> c <> 34 /\ c <> 60 /\ c <> 38 /\ 32 <= c.
(** value of a decimal number, without needless zeros *)
Definition decimal (s : bytes) (n : N) : Prop :=
  Forall (fun c => 48 <= c <= 57) s /\ fold_left (fun a c => 10 * a + (c - 48)) s 0 = n /\ s <> [] /\ (hd 48 s = 48 -> s = [48]).
(** seconds with three decimals *)
Definition in_seconds (s : bytes) (ms : N) : Prop := exists a b, s = a ++ [46] ++ b /\ decimal a (ms / 1000) /\ length b = 3%nat /\ Forall (fun c => 48 <= c <= 57) b /\ fold_left (fun a c => 10 * a + (c - 48)) b 0 = ms mod 1000.
Definition named (n : bytes) (es : list element) : list element := filter (fun e => bytes_eqb (tag e) n) es.
(** the element of a case of suite [s]: with name, status and time; with one failure exactly if it failed, telling where the case is *)
Definition case_shown (s : bytes) (c : card) (e : element) : Prop :=
  tag e = str "testcase" /\ attribute (str "classname") e = Some s /\ attribute (str "name") e = Some (k_name c) /\
  (exists t, attribute (str "time") e = Some t /\ in_seconds t (k_ms c)) /\
  (k_failed c = false -> named (str "failure") (within e) = []) /\
  (k_failed c = true -> exists f m, named (str "failure") (within e) = [f] /\ attribute (str "message") f = Some (k_filine c ++ str ":" ++ m) /\ m = concat (repeat (str "{newline}") (k_fails c))).
(** status of a case: the first that applies *)
Inductive status_shown (c : card) (e : element) : Prop :=
| SS : forall w, attribute (str "status") e = Some w ->
    (k_todo c = true -> w = str "TODO") -> (k_todo c = false -> k_filtered c = true -> w = str "Filtered") ->
    (k_todo c = false -> k_filtered c = false -> k_ignored c = true -> w = str "Ignored") ->
    (k_todo c = false -> k_filtered c = false -> k_ignored c = false -> k_failed c = true -> w = str "Failed") ->
    (k_todo c = false -> k_filtered c = false -> k_ignored c = false -> k_failed c = false -> k_warning c = true -> w = str "Warning") ->
    (k_todo c = false -> k_filtered c = false -> k_ignored c = false -> k_failed c = false -> k_warning c = false -> w = str "Passed") -> status_shown c e.
(** the element of a suite: its cases in order, and their number *)
Definition suite_shown (s : sheet) (e : element) : Prop :=
  tag e = str "testsuite" /\ attribute (str "name") e = Some (s_name s) /\
  (exists t, attribute (str "tests") e = Some t /\ decimal t (N.of_nat (length (s_cards s)))) /\
  Forall2 (fun c x => case_shown (s_name s) c x /\ status_shown c x) (s_cards s) (within e).
(** texts fit to be written between quotes *)
Definition clean_sheet (s : sheet) : Prop := clean (s_name s) /\ Forall (fun c => clean (k_name c) /\ clean (k_filine c)) (s_cards s).

(** the cases of a document *)
Definition testcases (d : element) : list element := flat_map within (within d).
Definition failures (d : element) : nat := length (flat_map (fun e => named (str "failure") (within e)) (testcases d)).
(** the status of a case that was treated so *)
Definition status_of (c : case_) (k : class) : bytes :=
  if c_todo c then str "TODO" else if c_filtered c then str "Filtered" else
  match k with Passed => str "Passed" | Failed => str "Failed" | Warning => str "Warning" | Todo => str "TODO" | Filtered => str "Filtered" | Ignored => str "Ignored" | Listed => [] end.
(** one round of different cases; or any number of rounds, without stopping early, of cases that stay as they are *)
Definition steady (o : opts) (order : nat -> list (bytes * list case_)) : Prop :=
  let all := flat_map snd (turns o order) in
  (run_rounds o = 1%nat /\ NoDup (map c_id all)) \/
  ((break_after_fails o <= 0)%Z /\ only_last_failed o = false /\ forall a b, In a all -> In b all -> c_id a = c_id b -> a = b).
Definition clean_facts (ft : facts) : Prop := forall i, clean (f_name ft i) /\ clean (f_filine ft i).
