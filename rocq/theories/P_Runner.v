(** C22 accounting, C23 early stop, C24 exit status. *)
From Coq Require Import List ZArith NArith Bool.
From Verif Require Import RunnerModel RunnerSpec RunnerProofs.
Import ListNotations.
Local Open Scope Z_scope.

(** Every case of every round is treated exactly once, in order, and rightly (see [treated]). *)
Theorem C22_every_case_once : forall o body order,
  Forall2 (treated o body) (agenda o order) (rev (r_log (fst (run o body order)))).
Proof. exact every_case_once. Qed.
Print Assumptions C22_every_case_once.

(** Each of the six numbers reported is the number of visits of that class. *)
Theorem C22_counts : forall o body order k, k <> Listed ->
  stat k (r_stats (fst (run o body order))) = count k (r_log (fst (run o body order))).
Proof. exact counts. Qed.
Print Assumptions C22_counts.

(** Unless only listing, the six numbers add up to the number of cases over all rounds. *)
Theorem C22_total : forall o body order, lists o = false ->
  let s := r_stats (fst (run o body order)) in
  passed s + failed s + warning s + todo s + filtered s + ignored s = Z.of_nat (length (agenda o order)).
Proof. exact total. Qed.
Print Assumptions C22_total.

(** The numbers reported for a suite are those of its own cases in that round. *)
Theorem C22_suite_reports : forall o body order, exists bs, concat bs = rev (r_log (fst (run o body order))) /\
  Forall2 (fun s b => forall k, k <> Listed -> stat k s = count k b) (rev (snd (run o body order))) bs /\
  Forall2 (fun it b => Forall2 (treated o body) (map (pair (fst it)) (snd it)) b)
    (flat_map (fun n => map (pair n) (order n)) (seq 0 (run_rounds o))) bs.
Proof. exact suite_reports. Qed.
Print Assumptions C22_suite_reports.

(** The executed cases are the shortest prefix of the run order with n failures, or all of them. *)
Theorem C23_early_stop : forall o body order, 0 < break_after_fails o -> only_last_failed o = false -> lists o = false ->
  exists rest, let ex := executed (rev (r_log (fst (run o body order)))) in
  eligible o order = ex ++ rest /\ nfail body ex <= break_after_fails o /\ (rest <> [] -> nfail body ex = break_after_fails o) /\
  (forall p q, ex = p ++ q -> q <> [] -> nfail body p < break_after_fails o).
Proof. exact early_stop. Qed.
Print Assumptions C23_early_stop.

(** Asked to, the process exits with zero exactly when nothing failed, multiples of 256 excepted. *)
Theorem C24_exit_status : forall o body order, exit_with_fails o = true ->
  (count Failed (r_log (fst (run o body order))) mod 256 = 0 -> count Failed (r_log (fst (run o body order))) = 0) ->
  (exit_status (main_result o (fst (run o body order))) = 0 <->
   forall v, In v (r_log (fst (run o body order))) -> v_class v <> Failed).
Proof. exact exit_zero. Qed.
Print Assumptions C24_exit_status.

(** *** concrete cases *)
Definition ex_cs (l : list N) : list case_ := map (fun i => mkcase i (i =? 9)%N (i =? 8)%N (i =? 3)%N) l.
Definition ex_order (r : nat) : list (list case_) := if Nat.even r then [ex_cs [1; 2; 9]%N; ex_cs [8; 3; 4; 5]%N] else [ex_cs [5; 4; 3; 8]%N; ex_cs [1; 2; 9]%N].
Definition ex_body : oracle := fun _ i => ((i =? 2)%N || (i =? 4)%N, (i =? 5)%N).
Definition ex_o (b : Z) (only : bool) : opts := mkopts 2 b only false true.

Example C22_case : r_stats (fst (run (ex_o 0 false) ex_body ex_order)) = mkstats 4 4 2 2 2 0
  /\ map (fun s => (passed s, failed s, warning s)) (rev (snd (run (ex_o 0 false) ex_body ex_order))) = [(1, 1, 0); (1, 1, 1); (1, 1, 1); (1, 1, 0)]
  /\ length (agenda (ex_o 0 false) ex_order) = 14%nat.
Proof. vm_compute. auto. Qed.
Example C22_only_last_case : r_stats (fst (run (ex_o 0 true) ex_body ex_order)) = mkstats 2 0 0 0 0 12.
Proof. vm_compute. auto. Qed.
Example C23_case : executed (rev (r_log (fst (run (ex_o 3 false) ex_body ex_order)))) = [(0%nat, 1%N); (0%nat, 2%N); (0%nat, 3%N); (0%nat, 4%N); (0%nat, 5%N); (1%nat, 5%N); (1%nat, 4%N)]
  /\ length (eligible (ex_o 3 false) ex_order) = 10%nat
  /\ executed (rev (r_log (fst (run (ex_o 9 false) ex_body ex_order)))) = eligible (ex_o 9 false) ex_order.
Proof. vm_compute. auto. Qed.
Example C24_case : exit_status (main_result (ex_o 0 false) (fst (run (ex_o 0 false) ex_body ex_order))) = 4
  /\ exit_status (main_result (ex_o 0 false) (fst (run (ex_o 0 false) (fun _ _ => (false, false)) ex_order))) = 0.
Proof. vm_compute. auto. Qed.

(** 256 failures read as success. *)
Theorem C24_256_refuted : exists o body order, exit_with_fails o = true /\ count Failed (r_log (fst (run o body order))) = 256
  /\ exit_status (main_result o (fst (run o body order))) = 0.
Proof.
  exists (mkopts 1 0 false false true), (fun _ _ => (true, false)), (fun _ => [map (fun i => mkcase (N.of_nat i) false false false) (seq 0 256)]).
  vm_compute. auto.
Qed.
Print Assumptions C24_256_refuted.
(** Without the option the status never tells. *)
Theorem C24_default_refuted : exists o body order, exit_with_fails o = false /\ count Failed (r_log (fst (run o body order))) = 4
  /\ exit_status (main_result o (fst (run o body order))) = 0.
Proof. exists (mkopts 2 0 false false false), ex_body, ex_order. vm_compute. auto. Qed.
Print Assumptions C24_default_refuted.
