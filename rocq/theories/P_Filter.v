(** C25 filters, C58 names and tags of a test. *)
From Coq Require Import List NArith Bool Arith Lia.
From Verif Require Import Base GlobModel FilterModel FilterSpec FilterProofs.
Import ListNotations.
Local Open Scope N_scope.

(** The flag of each case after filtering, for any wildcard matcher. *)
Theorem C25_cases : forall wild F s cases i c, nth_error cases i = Some c ->
  exists b, nth_error (snd (filter_suite wild F s cases)) i = Some b /\
  (b = true <-> (~ no_includes F /\ ~ included wild F s c) \/ excluded wild F s c).
Proof. exact cases_filtered. Qed.
Print Assumptions C25_cases.

(** A suite is hidden exactly when it is filtered by itself and all of its cases are filtered. *)
Theorem C25_suite : forall wild F s cases,
  fst (filter_suite wild F s cases) = true <->
  ((~ no_includes F /\ ~ suite_included wild F s) \/ suite_excluded wild F s) /\
  (forall c, In c cases -> (~ no_includes F /\ ~ included wild F s c) \/ excluded wild F s c).
Proof. exact suite_filtered. Qed.
Print Assumptions C25_suite.

(** Names and tags come from the description as documented, quotes respected, up to 63 tags. *)
Theorem C58_describe : forall fl d, (length d < 512)%nat -> exists t, describe_test fl d = Some t /\ t_filine t = fl /\
  exists nm tg ts, ((exists pre post, bracketed d pre tg post /\ nm = pre ++ post) \/ ((forall pre mid post, ~ bracketed d pre mid post) /\ nm = d /\ tg = []))
   /\ stripped nm (t_name t) /\ tokens tg ts /\ t_tags t = firstn 63 ts.
Proof. exact describe_spec. Qed.
Print Assumptions C58_describe.

(** *** concrete cases *)
Definition ex_wild (p s : bytes) : bool := match wildcard_match true 10000 p s with Some b => b | None => false end.
Definition ex_s := mktest (str "net.cpp:10") (str "Sockets") [str "io"; str "slow"].
Definition ex_c1 := mktest (str "net.cpp:12") (str "connect times out") [str "flaky"].
Definition ex_c2 := mktest (str "net.cpp:30") (str "send") [].
Definition ex_F := mkfilters [str "TIME"; str "s?nd"] [] [] [] [] [] [] [] [] [str "FLA*"].

Example C25_case : filter_suite ex_wild ex_F ex_s [ex_c1; ex_c2] = (false, [true; false]).
Proof. vm_compute. auto. Qed.
(** everything excluded case by case, yet the suite stays shown *)
Theorem C25_hidden_refuted : exists wild F s cases, cases <> [] /\ (forall b, In b (snd (filter_suite wild F s cases)) -> b = true) /\
  fst (filter_suite wild F s cases) = false.
Proof.
  exists ex_wild, (mkfilters [] [] [] [] [] [] [] [str "e"] [] []), ex_s, [ex_c1; ex_c2].
  split; [discriminate|]. split; [|vm_compute; auto].
  vm_compute. intros b [<-|[<-|[]]]; auto.
Qed.
Print Assumptions C25_hidden_refuted.

Example C58_case : describe_test (str "a.cpp:1") (str " say ""[hi]"" [io, slow ,x] twice") =
  Some (mktest (str "a.cpp:1") (str "say ""[hi]""  twice") [str "io"; str "slow"; str "x"]).
Proof. vm_compute. auto. Qed.
(** descriptions of 512 bytes or more overrun the buffers *)
Theorem C58_long_refuted : exists fl d, ~ In 0 d /\ describe_test fl d = None.
Proof. exists (str "a.cpp:1"), (repeat 97 512). split; [|vm_compute; auto]. intro H. apply repeat_spec in H. discriminate. Qed.
Print Assumptions C58_long_refuted.
