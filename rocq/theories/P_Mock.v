(** C20, C21, C56: mock verdicts, charging of calls, declaration chains. *)
From Coq Require Import List ZArith Bool.
From Verif Require Import MockModel MockSpec MockProofs2 MockProofs3 MockSpec2 MockProofs4.
Import ListNotations.
Local Open Scope Z_scope.

(** a mock names exactly the expectations whose number of calls is outside the declared range *)
Theorem C20_verdict : forall V R ab (ds : list (decl V R)) ls k os, proper ds -> calls ab (declares ds) ls = (k, os) ->
  forall i, In i (check k) <-> exists l r, nth_error (ranges ds) i = Some (l, r) /\ ~ (l <= charged i os <= r).
Proof. exact verdict. Qed.
Print Assumptions C20_verdict.

(** at the end of a case no mock failure is raised exactly when all expectations of all its mocks are met *)
Theorem C20_case_verdict : forall V R ab (ks : list (list (decl V R) * list (list V))), (forall ds ls, In (ds, ls) ks -> proper ds) ->
  (fst (clear (map (fun x => fst (calls ab (declares (fst x)) (snd x))) ks) true) = [] <->
   forall ds ls, In (ds, ls) ks -> forall i l r, nth_error (ranges ds) i = Some (l, r) -> l <= charged i (snd (calls ab (declares ds) ls)) <= r).
Proof. exact case_verdict. Qed.
Print Assumptions C20_case_verdict.

(** MOCK(f).Once(1).Return(11).Between(1,2, any).Th1(5) called with (1,0) (1,5) (2,5) (2,5) *)
Example C20_case : let ds := [Expect Once [Z.eqb 1]; Return 11; Expect (Between 1 2) []; Th 1 (Z.eqb 5)] in
  proper ds /\ ranges ds = [(1, 1); (1, 2)] /\
  check (fst (calls false (declares ds) [[1; 0]; [1; 5]; [2; 5]])) = [] /\
  check (fst (calls false (declares ds) [[1; 0]; [1; 5]; [2; 5]; [2; 5]])) = [1%nat] /\
  check (fst (calls false (declares ds) [[1; 0]])) = [1%nat] /\
  map o_charged (snd (calls false (declares ds) [[1; 0]; [1; 5]; [2; 5]])) = [Some 0%nat; Some 1%nat; Some 1%nat].
Proof.
  cbv zeta. split.
  - intros b ms [H|[H|[H|[H|[]]]]]; try discriminate; injection H as <- _; cbn; discriminate.
  - vm_compute. auto 6.
Qed.

(** a reversed range is accepted and passes on its "upper" bound *)
Theorem C20_reversed_range_refuted : exists (ds : list (decl Z Z)) ls, check (fst (calls false (declares ds) ls)) = [] /\
  exists l r, nth_error (ranges ds) 0 = Some (l, r) /\ ~ (l <= charged 0 (snd (calls false (declares ds) ls)) <= r).
Proof.
  exists [Expect (Between 3 1) []], [[7]]. split; [vm_compute; reflexivity|]. exists 3, 1. split; [reflexivity|].
  vm_compute. intros [H _]. apply H. reflexivity.
Qed.
Print Assumptions C20_reversed_range_refuted.

(** a call without a failure report is charged; the charged expectation accepts it and the position never moves back *)
Theorem C21_charged : forall V R ab (ds : list (decl V R)) ls k os, calls ab (declares ds) ls = (k, os) ->
  forall a k' o, matches ab k a = (k', o) ->
  (o_reports o = [] -> o_charged o <> None) /\
  (forall i, o_charged o = Some i -> (index k <= i)%nat /\ index k' = i /\ exists m, nth_error (matchers (declares ds)) i = Some m /\ accepts m a).
Proof. exact @charge_accepts. Qed.
Print Assumptions C21_charged.

(** as long as no failure was reported, every expectation left behind has received its minimum *)
Theorem C21_left_behind : forall V R ab (ds : list (decl V R)) ls k os, proper ds -> calls ab (declares ds) ls = (k, os) ->
  (forall o, In o os -> o_reports o = []) -> forall j l r, (j < index k)%nat -> nth_error (ranges ds) j = Some (l, r) -> l <= charged j os.
Proof. exact left_behind. Qed.
Print Assumptions C21_left_behind.

(** "unexpectedly called" means no remaining expectation accepts the call; and conversely *)
Theorem C21_unexpected : forall V R ab (ds : list (decl V R)) ls k os, calls ab (declares ds) ls = (k, os) ->
  forall a k' o, matches ab k a = (k', o) ->
  (In Unexpected (o_reports o) -> o_charged o = None /\ forall j m, (index k <= j)%nat -> nth_error (matchers (declares ds)) j = Some m -> ~ accepts m a) /\
  ((forall j m, (index k <= j)%nat -> nth_error (matchers (declares ds)) j = Some m -> ~ accepts m a) -> o_charged o = None /\ (ab = false -> In Unexpected (o_reports o))).
Proof. exact @unexpected_iff. Qed.
Print Assumptions C21_unexpected.

(** an argument failure names an expectation not yet (or no longer) within its range, and exactly the refused arguments *)
Theorem C21_mismatch : forall V R ab (ds : list (decl V R)) ls k os, calls ab (declares ds) ls = (k, os) ->
  forall a k' o, matches ab k a = (k', o) -> forall j bad, In (Mismatch j bad) (o_reports o) ->
  (index k <= j)%nat /\ (forall i, o_charged o = Some i -> (j < i)%nat) /\
  exists m l r, nth_error (matchers (declares ds)) j = Some m /\ nth_error (ranges ds) j = Some (l, r) /\
    ~ (l <= charged j os <= r) /\ bad <> [] /\ forall p, In p bad <-> refused m a p.
Proof. exact @mismatch_report. Qed.
Print Assumptions C21_mismatch.

(** a call goes beyond a full expectation only if the next one does not accept it *)
Theorem C21_overcall : forall V R ab (ds : list (decl V R)) ls k os, calls ab (declares ds) ls = (k, os) ->
  forall a k' o, matches ab k a = (k', o) -> forall i l r, o_charged o = Some i -> nth_error (ranges ds) i = Some (l, r) -> charged i os = r ->
  forall m, nth_error (matchers (declares ds)) (S i) = Some m -> ~ accepts m a.
Proof. exact @overcall. Qed.
Print Assumptions C21_overcall.

(** a mock is greedy unless greed was called, and then what the last of these calls says *)
Theorem C21_mode : forall V R (ds es : list (decl V R)) b, (forall c, ~ In (Greed c) es) -> greed (declares es) = true /\ greed (declares (ds ++ Greed b :: es)) = b.
Proof. exact mode_told. Qed.
Print Assumptions C21_mode.
Example C21_mode_case : (forall c, ~ In (Greed c) [Expect Once [Z.eqb 1]; Return 11]) /\ greed (declares [Expect Once [Z.eqb 1]; Return 11]) = true /\ greed (declares [Greed true; Greed false; Expect Once [Z.eqb 1]; Return 11]) = false.
Proof. split; [intros c [H|[H|[]]]; discriminate|]. vm_compute. auto. Qed.

(** greedy mode: an accepting expectation is skipped only when it is full *)
Theorem C21_greedy : forall V R ab (ds : list (decl V R)) ls k os, calls ab (declares ds) ls = (k, os) ->
  forall a k' o, matches ab k a = (k', o) -> greed (declares ds) = true ->
  forall i j l r m, o_charged o = Some i -> (index k <= j < i)%nat -> nth_error (ranges ds) j = Some (l, r) ->
  nth_error (matchers (declares ds)) j = Some m -> accepts m a -> charged j os = r.
Proof. exact @greedy_skip. Qed.
Print Assumptions C21_greedy.

(** without greed: a call stays with an expectation whose minimum is met only if the next one does not accept it *)
Theorem C21_lazy : forall V R ab (ds : list (decl V R)) ls k os, calls ab (declares ds) ls = (k, os) ->
  forall a k' o, matches ab k a = (k', o) -> greed (declares ds) = false ->
  forall i l r, o_charged o = Some i -> nth_error (ranges ds) i = Some (l, r) -> l <= charged i os ->
  forall m, nth_error (matchers (declares ds)) (S i) = Some m -> ~ accepts m a.
Proof. exact @lazy_moves_on. Qed.
Print Assumptions C21_lazy.

(** in either mode an accepting expectation short of its minimum is not skipped *)
Theorem C21_not_skipped : forall V R ab (ds : list (decl V R)) ls k os, calls ab (declares ds) ls = (k, os) ->
  forall a k' o, matches ab k a = (k', o) ->
  forall i j l r m, o_charged o = Some i -> (index k <= j < i)%nat -> nth_error (ranges ds) j = Some (l, r) ->
  nth_error (matchers (declares ds)) j = Some m -> accepts m a -> l <= charged j os \/ charged j os = r.
Proof. exact @skip_done. Qed.
Print Assumptions C21_not_skipped.

(** Between(1,3).Once, not greedy: two calls accepted by both *)
Example C21_lazy_case : let ds := [Greed false; Expect (Between 1 3) [Z.ltb 0]; Expect Once [Z.ltb 1]] in
  let r := calls false (declares ds) [[2]; [2]] in
  map o_charged (snd r) = [Some 0%nat; Some 1%nat] /\ greed (declares (V := Z) (R := Z) ds) = false /\
  map o_charged (snd (calls false (declares (tl ds)) [[2]; [2]])) = [Some 0%nat; Some 0%nat].
Proof. vm_compute. auto. Qed.

(** the routine that runs is the one declared with the charged expectation *)
Theorem C21_dispatch : forall V R ab (ds : list (decl V R)) ls k os, calls ab (declares ds) ls = (k, os) ->
  forall a k' o, matches ab k a = (k', o) ->
  (dispatch k' o = None <-> o_aborted o = true) /\
  (o_aborted o = false -> dispatch k' o = Some (match o_charged o with Some i => match nth_error (routines (declares ds)) i with Some (Some r) => Routine r | _ => Original end | None => Original end)).
Proof. exact @dispatch_spec. Qed.
Print Assumptions C21_dispatch.

(** Once(1).Return(11).Twice(x>1).Return(22).Any(7): calls 1 2 3 3 9 *)
Example C21_case : let ds := [Expect Once [Z.eqb 1]; Return 11; Expect Twice [Z.ltb 1]; Return 22; Expect Any [Z.eqb 7]] in
  let r := calls false (declares ds) [[1]; [2]; [3]; [3]] in
  map o_charged (snd r) = [Some 0%nat; Some 1%nat; Some 1%nat; Some 1%nat] /\ index (fst r) = 1%nat /\
  o_reports (snd (matches false (fst (calls false (declares ds) [[1]])) [0])) = [Mismatch 1 [0%nat]; Unexpected] /\
  o_charged (snd (matches false (fst (calls false (declares ds) [[1]])) [7])) = Some 1%nat /\
  dispatch (fst (matches false (declares ds) [1])) (snd (matches false (declares ds) [1])) = Some (Routine 11).
Proof. vm_compute. auto 8. Qed.

(** modifiers of a declaration chain affect their own expectation only; a final "= f" fills in missing routines *)
Theorem C56_grouped : forall V R (gs : list (group V R)) (tail : option R), gs <> [] ->
  let k := declares (flat_map group_decls gs ++ match tail with Some r => [Assign r] | None => [] end) in
  matchers k = map (fun g => fst (group_value g)) gs /\
  routines k = map (fun g => match snd (group_value g) with Some r => Some r | None => tail end) gs /\
  map (fun c => (least c, most c)) (checkins k) = map (fun g => range (g_bounds g)) gs.
Proof. exact grouped. Qed.
Print Assumptions C56_grouped.

Example C56_case : let gs := [mkgroup Once [Z.eqb 1] [MReturn 5; MTh 1 (Z.eqb 3); MReturn 6]; mkgroup (Atleast 2) [] []] in
  gs <> [] /\ map (fun g => snd (group_value g)) gs = [Some 6; None] /\
  routines (declares (flat_map group_decls gs ++ [Assign 9])) = [Some 6; Some 9].
Proof. cbv zeta. split; [discriminate|]. vm_compute. auto. Qed.

(** a chain that starts without a number of calls means any number of calls *)
Theorem C56_leading : forall V R (ms : list (modifier V R)) (gs : list (group V R)) (tail : option R), ms <> [] ->
  let k := declares (map as_decl ms ++ flat_map group_decls gs ++ match tail with Some r => [Assign r] | None => [] end) in
  let all := mkgroup Any [] ms :: gs in
  matchers k = map (fun g => fst (group_value g)) all /\
  routines k = map (fun g => match snd (group_value g) with Some r => Some r | None => tail end) all /\
  map (fun c => (least c, most c)) (checkins k) = map (fun g => range (g_bounds g)) all.
Proof. exact leading. Qed.
Print Assumptions C56_leading.

Example C56_leading_case : let ds := map as_decl [MReturn 5] ++ flat_map group_decls [mkgroup Once [Z.eqb 1] []] ++ [Assign 9] in
  map (fun c => (least c, most c)) (checkins (declares ds)) = [(0, 2147483647); (1, 1)] /\ routines (declares ds) = [Some 5; Some 9].
Proof. vm_compute. auto. Qed.

(** an argument is judged by the matcher written for it last; an argument no matcher is written for may be anything *)
Theorem C56_arguments : forall V R (gs : list (group V R)) (tail : option R) n g, Forall within_twenty gs -> nth_error gs n = Some g ->
  exists ms, nth_error (matchers (declares (flat_map group_decls gs ++ match tail with Some r => [Assign r] | None => [] end))) n = Some ms /\ length ms = 20%nat /\
    forall j m, nth_error ms j = Some m -> forall a, m a = match in_force g j with Some m' => m' a | None => true end.
Proof. exact arguments_judged. Qed.
Print Assumptions C56_arguments.

Example C56_arguments_case : let gs := [mkgroup Once [Z.eqb 1; Z.eqb 2] [MTh 1 (Z.eqb 3); MReturn 6]; mkgroup Twice [Z.eqb 8] [MTh 2 (Z.eqb 5); MWith [Z.eqb 7]]] in
  Forall within_twenty gs /\ map (fun ms => map (fun m => m 3) (firstn 3 ms)) (matchers (declares (flat_map group_decls gs))) = [[false; true; true]; [false; true; true]].
Proof.
  cbv zeta. split; [|vm_compute; reflexivity].
  apply Forall_forall. intros g [<-|[<-|[]]]; (split; [cbn; repeat constructor|]); intros ms H; cbn in H.
  - destruct H as [H|[H|[]]]; discriminate.
  - destruct H as [H|[H|[]]]; [discriminate|]. injection H as <-. cbn. repeat constructor.
Qed.
