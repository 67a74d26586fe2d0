(** C81: where memory is watched and what it is charged to. *)
From Coq Require Import List NArith Bool Lia.
From Verif Require Import HookModel HookSpec HookProofs HookProofs2 HookProofs3.
Import ListNotations.
Local Open Scope N_scope.

(** Whatever the cases before it did - jumped out of UNMEM, left blocks open - a case whose UNMEM blocks are calm has its memory watched
    exactly where it is not within UNMEM, and charged to the innermost BLOCK around it. *)
Theorem C81_watched : forall o cs out st es, o_check o = true -> run_cases o cs (start o) = (out, st, es) ->
  forall i c e, nth_error cs i = Some c -> nth_error es i = Some e ->
  forallb (calm false) (c_body c) = true -> forallb (calm false) (c_cleanup c) = true -> case_places c e.
Proof. intros o cs out st es Ho H. exact (cases_watched o Ho cs (start o) out st es (start_set o Ho) H). Qed.
Print Assumptions C81_watched.

(** Every case begins watched: its first allocation is charged to it. *)
Theorem C81_begins : forall o cs st es c k b, o_check o = true -> run_cases o cs (start o) = (Normal, st, es) -> c_body c = SAlloc k :: b ->
  exists out st1 e, run_case o c st = (out, st1, Seen k (Some (c_label c)) :: e).
Proof. exact case_begins. Qed.
Print Assumptions C81_begins.

(** Code without exceptions caught in it that runs to its end has had all its allocations observed. *)
Theorem C81_all : forall o b st st1 e, forallb untried b = true -> run_code o b st = (Normal, st1, e) ->
  forall k, In k (flat_map allocs b) -> exists x, In (Seen k x) e.
Proof. exact code_all. Qed.
Print Assumptions C81_all.

(** At the end of each block and of each case exactly the memory charged to it and not released is reported as leaked. *)
Theorem C81_leaks : forall o cs out st es,
  NoDup (0 :: 1 :: map fst (flat_map blocks_of cs)) -> NoDup (flat_map allocs_of cs) -> run_cases o cs (start o) = (out, st, es) ->
  leaks_exact (flat_map blocks_of cs) (concat es).
Proof. exact leaks_of_cases. Qed.
Print Assumptions C81_leaks.

(** A case whose body is not left from within a block ends its own scope, and leaves the scopes as it found them. *)
Theorem C81_ends : forall o c st st1 e, run_case o c st = (Normal, st1, e) ->
  (fst (fst (run_code o (c_body c) (push (c_label c) false st))) <> Jumped \/ flat_map blocks (c_body c) = []) ->
  map s_label (scopes st1) = map s_label (scopes st) /\ exists before ks, e = before ++ [Ended (c_label c) ks].
Proof. exact case_ends. Qed.
Print Assumptions C81_ends.

(** The overrides are installed once after every case, or never without the memory check, which then reports nothing. *)
Theorem C81_installed : forall o cs st es, run_cases o cs (start o) = (Normal, st, es) -> installed st = if o_check o then 1%nat else 0%nat.
Proof. exact cases_installed. Qed.
Print Assumptions C81_installed.

Theorem C81_off : forall o cs out st es, o_check o = false -> run_cases o cs (start o) = (out, st, es) -> Forall (Forall silent) es.
Proof. intros o cs out st es Ho H. exact (cases_silent o Ho cs (start o) out st es (start_nothing o Ho) H). Qed.
Print Assumptions C81_off.

(** In UNMEM a regular expression, or an exception thrown and caught, switches the watching on: what is allocated after it is charged although it is
    within UNMEM. *)
Theorem C81_help_refuted : exists k l, forall s, s = SHelp \/ s = STry [SThrow] ->
  let b := [SBlock l true false [s; SAlloc k]] in
  In (Seen k (Some l)) (concat (snd (run_cases (mkopts true false false) [mkcase 2 b []] (start (mkopts true false false))))) /\
  forall x, In (k, x) (flat_map (places true 2) b) -> x = None.
Proof. exists 7, 3. intros s [-> | ->]; (split; [vm_compute; auto | intros x [H|[]]; cbn in H; congruence]). Qed.
Print Assumptions C81_help_refuted.

(** An UNMEM within UNMEM switches the watching on when it ends. *)
Theorem C81_nested_refuted : exists b out st es, run_cases (mkopts true false false) [mkcase 2 b []] (start (mkopts true false false)) = (out, st, es) /\
  (exists k l e, es = [e] /\ In (Seen k (Some l)) e /\ forall x, In (k, x) (flat_map (places true 2) b) -> x = None).
Proof.
  exists [SBlock 3 true false [SBlock 4 true false []; SAlloc 7]]. eexists _, _, _. split; [vm_compute; reflexivity|].
  exists 7, 3. eexists. split; [reflexivity|]. split; [right; left; reflexivity|]. intros x [H|[]]. cbn in H. congruence.
Qed.
Print Assumptions C81_nested_refuted.

(** A check that fails within a BLOCK leaves the block's scope behind: the case then ends that scope instead of its own, and its own leak is not reported. *)
Theorem C81_left_refuted : exists b out st es k, run_cases (mkopts true false false) [mkcase 2 b []] (start (mkopts true false false)) = (out, st, es) /\
  out = Normal /\ In (Seen k (Some 2)) (concat es) /\ ~ In (Freed k) (concat es) /\ forall l ks, In (Ended l ks) (concat es) -> ~ In k ks.
Proof.
  exists [SAlloc 7; SBlock 3 false false [SFail]]. eexists _, _, _, 7. split; [vm_compute; reflexivity|].
  split; [reflexivity|]. split; [left; reflexivity|]. split; [intros [H|[H|[]]]; discriminate|].
  intros l ks [H|[H|[]]]; [discriminate|]. injection H as <- <-. intros [].
Qed.
Print Assumptions C81_left_refuted.

(** A check that fails within UNMEM leaves the watching off for the clean-up code: releasing there what the case allocated goes to the C library,
    which does not know it. *)
Theorem C81_cleanup_refuted : exists b cl st es, run_cases (mkopts true false false) [mkcase 2 b cl] (start (mkopts true false false)) = (Broken, st, es) /\
  fst (fst (run_cases (mkopts false false false) [mkcase 2 b cl] (start (mkopts false false false)))) = Normal.
Proof. exists [SAlloc 7; SBlock 3 true false [SFail]], [SFree 7]. eexists _, _. split; vm_compute; reflexivity. Qed.
Print Assumptions C81_cleanup_refuted.

(* examples *)
Definition on := mkopts true false false.
Definition first := mkcase 2 [SAlloc 10; SBlock 3 true false [SAlloc 11; SFail]] [].
Definition second := mkcase 4 [SAlloc 20; SHelp; SBlock 5 false false [SAlloc 21; SBlock 6 true false [SAlloc 22; SFree 22]; SAlloc 23; SFree 21; SFree 23]; STry [SAlloc 24; SThrow]] [SFree 20].
Example C81_two : run_cases on [first; second] (start on) =
  (Normal, mkstate true 1 [mkscope 2 false [(10, false)]; mkscope 1 false []; mkscope 0 false []],
   [[Seen 10 (Some 2); Seen 11 None; Ended 3 []];
    [Seen 20 (Some 4); Seen 21 (Some 5); Seen 22 None; Ended 6 []; Seen 23 (Some 5); Freed 21; Freed 23; Ended 5 []; Seen 24 (Some 4); Freed 20; Ended 4 [24]]]).
Proof. vm_compute. reflexivity. Qed.
Example C81_second_calm : forallb (calm false) (c_body second) = true /\ forallb (calm false) (c_cleanup second) = true /\ forallb (calm false) (c_body first) = false.
Proof. vm_compute. auto. Qed.
Example C81_distinct : NoDup (0 :: 1 :: map fst (flat_map blocks_of [first; second])) /\ NoDup (flat_map allocs_of [first; second]).
Proof. vm_compute. split; repeat constructor; cbn; intuition discriminate. Qed.
Example C81_second_ends : fst (fst (run_code on (c_body second) (push 4 false (start on)))) = Normal.
Proof. vm_compute. reflexivity. Qed.
Example C81_unwatched : run_cases (mkopts false false false) [second] (start (mkopts false false false)) =
  (Normal, mkstate false 0 [mkscope 1 false []; mkscope 0 false []],
   [[Seen 20 None; Seen 21 None; Seen 22 None; Ended 6 []; Seen 23 None; Ended 5 []; Seen 24 None; Ended 4 []]]).
Proof. vm_compute. reflexivity. Qed.
Example C81_begins_after : exists st es, run_cases on [first] (start on) = (Normal, st, es) /\ c_body second = SAlloc 20 :: tl (c_body second).
Proof. eexists _, _. split; vm_compute; reflexivity. Qed.
Example C81_untried : forallb untried (firstn 3 (c_body second)) = true /\ flat_map allocs (firstn 3 (c_body second)) = [20; 21; 22; 23] /\
  fst (fst (run_code on (firstn 3 (c_body second)) (start on))) = Normal.
Proof. vm_compute. auto. Qed.
