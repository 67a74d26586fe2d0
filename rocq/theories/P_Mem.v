(** C13-C16, C52-C54: the checked heap. [ps] is the page size, [ex] tells which call stacks are exempted. *)
From Coq Require Import List NArith Bool Lia.
From Verif Require Import Base PieceModel PieceSpec MemModel MemSpec MemProofs MemProofs2 MemProofs3 MemExamples.
Import ListNotations.
Local Open Scope N_scope.

(** C13: for every history and every pointer the heap knows, the report made by a release is decided by the history:
    double free iff released before; mismatch iff not released before, the functions do not correspond and the allocation is
    not exempted; otherwise nothing or an overflow (C12 says which). *)
Theorem C13_release_report : forall ps ex, pow2 ps -> forall tr st who ptr, history ps ex tr st -> tracked st ptr ->
  let f := snd (stack_rel ps ex st who ptr) in
  (f = Some (FDouble ptr) <-> released tr ptr = true) /\
  exists wa size bt, latest_alloc tr ptr = Some (wa, size, bt) /\
    ((exists x y, f = Some (FAsym ptr x y)) <-> released tr ptr = false /\ ~ corresponds wa who /\ ex bt = false) /\
    (released tr ptr = false -> corresponds wa who \/ ex bt = true ->
       f = None \/ exists a spot, f = Some (FOverflow ptr size a spot)).
Proof. exact release_report. Qed.
Print Assumptions C13_release_report.

Theorem C13_unknown_pointer : forall ps ex st who ptr, ~ tracked st ptr -> stack_rel ps ex st who ptr = (st, None).
Proof. exact release_untracked. Qed.
Print Assumptions C13_unknown_pointer.

(** a pointer that was handed out stays known until a scope is closed *)
Theorem C13_known : forall ps ex st e st' o q, step ps ex st e = Some (st', o) ->
  (e <> Pop -> tracked st q -> tracked st' q) /\ (o = OPtr (Some q) -> tracked st' q).
Proof. exact tracked_step. Qed.
Print Assumptions C13_known.

Example C13_case1 : map snd (firstn 3 (tr_of (es1 ++ [free (up 24 40); delete (up 16 20); free (up 16 30)]))) =
  [OFail None; OFail (Some (FAsym (up 16 20) (str "malloc") (str "delete"))); OFail (Some (FDouble (up 24 40)))].
Proof. vm_compute. reflexivity. Qed.
Example C13_case2 : history ps0 ex0 (tr_of es1) (st_of es1) /\ tracked (st_of es1) (up 16 20) /\
  released (tr_of es1) (up 24 40) = true /\ released (tr_of es1) (up 16 20) = false.
Proof.
  split; [apply of_history; vm_compute; reflexivity|]. split; [|split; vm_compute; reflexivity].
  apply tracked_ptrs. assert (E : existsb (N.eqb (up 16 20)) (map p_ptr (flat_map b_pieces (blocks (st_of es1)))) = true) by (vm_compute; reflexivity).
  apply existsb_exists in E. destruct E as (x & A & B). apply N.eqb_eq in B. subst x. exact A.
Qed.

(** C14: closing the innermost scope when no access violation was recorded in it. [bytes_bt], [count_bs] count in the
    list of allocations of the scope that the history never released. *)
Theorem C14_leak_report : forall ps ex, pow2 ps -> forall tr st st' fs, history ps ex tr st -> step ps ex st Pop = Some (st', OFails fs) ->
  (forall b p, hd_error (blocks st) = Some b -> In p (b_pieces b) -> p_vtimes p = 0) ->
  exists a, scope_attrs tr 0 = Some a /\
   (a_noleak a = true -> fs = []) /\
   (a_noleak a = false ->
     (fs = [] <-> unreleased ex tr 0 = []) /\
     NoDup (map leak_bt fs) /\
     (forall f, In f fs -> exists bt sizes, leak_of f = Some (bt, bytes_bt (unreleased ex tr 0) bt mod 2 ^ 64, sizes) /\
        NoDup (map fst sizes) /\
        forall s, sizes_count sizes s = count_bs (unreleased ex tr 0) bt s) /\
     (forall q s bt, In (q, s, bt) (unreleased ex tr 0) -> exists f, In f fs /\ leak_bt f = Some bt)).
Proof. exact leak_report. Qed.
Print Assumptions C14_leak_report.

(** a recorded access violation takes precedence over leaks; all violated allocations are listed *)
Theorem C14_violations_first : forall ps ex st st' fs b, step ps ex st Pop = Some (st', OFails fs) -> hd_error (blocks st) = Some b ->
  (exists p, In p (b_pieces b) /\ p_vtimes p <> 0) ->
  forall f, In f fs <-> exists p, In p (b_pieces b) /\ p_vtimes p <> 0 /\ f = FViolate (p_ptr p) (p_vptr p) (p_vwrite p) (p_vafter p).
Proof. exact violation_report. Qed.
Print Assumptions C14_violations_first.

Example C14_case1 : map snd (firstn 2 (tr_of (es1 ++ [Pop; Pop]))) =
  [OFails [FLeak (up 30 10) 30 [(30, 1)] 5; FLeak (up 8 50) 8 [(8, 1)] 99]; OFails [FLeak (up 16 20) 32 [(16, 2)] 1]].
Proof. vm_compute. reflexivity. Qed.
Example C14_case2 : unreleased ex0 (tr_of es1) 0 = [(up 16 30, 16, 1); (up 16 20, 16, 1)] /\
  unreleased ex0 (tr_of es1) 1 = [(up 8 50, 8, 99); (up 30 10, 30, 5)].
Proof. vm_compute. auto. Qed.

(** C15 *)
Theorem C15_limit_never_exceeded : forall ps ex, pow2 ps -> forall tr st i a, history ps ex tr st -> no_double_report tr -> limits_ok tr ->
  (i < depth tr)%nat -> scope_attrs tr i = Some a -> live_bytes ex tr i <= a_limit a.
Proof. exact limit_never_exceeded. Qed.
Print Assumptions C15_limit_never_exceeded.

Theorem C15_refused_iff_exceeding : forall ps ex, pow2 ps -> forall tr st who size al fill bt base st' r a,
  history ps ex tr st -> no_double_report tr -> limits_ok tr ->
  enabled ps ex st (Alloc who size al fill bt base) -> (0 < depth tr)%nat ->
  step ps ex st (Alloc who size al fill bt base) = Some (st', OPtr r) ->
  scope_attrs tr (charged ex tr bt) = Some a ->
  (r = None <-> a_limit a < live_bytes ex tr (charged ex tr bt) + size).
Proof. exact refused_iff. Qed.
Print Assumptions C15_refused_iff_exceeding.

Definition es15 : list event := [Push at0; malloc 60 1 20; malloc 50 1 30; malloc 40 1 40].
Example C15_case : map snd (tr_of (es15 ++ [malloc 1 1 50; free (up 60 20); malloc 60 1 60])) =
  [OPtr (Some (up 60 60)); OFail None; OPtr None; OPtr (Some (up 40 40)); OPtr None; OPtr (Some (up 60 20)); ONone] /\
  live_bytes ex0 (tr_of es15) 0 = 100 /\ history ps0 ex0 (tr_of es15) (st_of es15).
Proof. split; [vm_compute; reflexivity|]. split; [vm_compute; reflexivity|]. apply of_history. vm_compute. reflexivity. Qed.

(** after a double free the limit is no longer enforced *)
Theorem C15_after_double_free_refuted : exists tr st e st' q, history ps0 ex0 tr st /\ scope_attrs tr 0 = Some at0 /\
  enabled ps0 ex0 st e /\ step ps0 ex0 st e = Some (st', OPtr (Some q)) /\
  exists who size al fill bt base, e = Alloc who size al fill bt base /\ a_limit at0 < live_bytes ex0 tr 0 + size.
Proof.
  pose (es := [Push at0; malloc 60 1 20; free (up 60 20); free (up 60 20)]).
  exists (tr_of es), (st_of es), (malloc 150 1 40).
  assert (O : outcome_of (st_of es) (malloc 150 1 40) = Some (OPtr (Some (up 150 40)))) by (vm_compute; reflexivity).
  unfold outcome_of in O. destruct (step ps0 ex0 (st_of es) (malloc 150 1 40)) as [[s o]|] eqn:E; [|discriminate].
  cbn [option_map snd] in O. assert (Ho : o = OPtr (Some (up 150 40))) by congruence. subst o. clear O. exists s, (up 150 40).
  split; [apply of_history; vm_compute; reflexivity|]. split; [vm_compute; reflexivity|].
  split; [apply enabledb_ok; vm_compute; reflexivity|]. split; [reflexivity|].
  unfold malloc. do 6 eexists. split; [reflexivity|]. vm_compute. reflexivity.
Qed.
Print Assumptions C15_after_double_free_refuted.

(** the sum wraps: with one live byte an allocation of SIZE_MAX bytes passes the limit check *)
Theorem C15_huge_request_refuted : exists b m fl base, a_limit (b_attrs b) = 100 /\ b_allocated b = 1 /\
  block_new 4096 b m fl base (str "malloc") (2 ^ 64 - 1) 0 None 1 <> None.
Proof. exists (mkblock at0 1 1 []), (fun _ => 0), 0, 4096. split; [reflexivity|]. split; [reflexivity|].
  intro H. assert (B : match block_new 4096 (mkblock at0 1 1 []) (fun _ => 0) 0 4096 (str "malloc") (2 ^ 64 - 1) 0 None 1 with Some _ => true | None => false end = true)
    by (vm_compute; reflexivity). rewrite H in B. discriminate.
Qed.
Print Assumptions C15_huge_request_refuted.

(** C16 *)
Theorem C16_realloc : forall ps ex, pow2 ps -> forall tr st base ptr size bt o st' q f, history ps ex tr st ->
  stack_get st ptr = Some o -> size <> 0 ->
  enabled ps ex st (Alloc (str "realloc") size 0 None bt base) ->
  do_realloc ps ex st base ptr size bt = (st', Some q, f) ->
  (forall k, k < N.min (p_size o) size -> memo st' (q + k) = memo st (ptr + k)) /\
  history ps ex ((Rel (str "free") ptr, OFail f) :: (Alloc (str "realloc") size 0 None bt base, OPtr (Some q)) :: tr) st' /\
  (forall b p x, In b (blocks st) -> In p (b_pieces b) -> within x (p_page p) (p_grd p + ps) -> memo st' x = memo st x).
Proof. exact realloc_success. Qed.
Print Assumptions C16_realloc.

Definition es16 : list event := [Push at0; malloc 10 1 20; Store (up 10 20) 65 1; Store (up 10 20 + 9) 66 1].
Example C16_case : let r := do_realloc ps0 ex0 (st_of es16) (30 * 4096) (up 10 20) 20 2 in
  (snd (fst r), snd r) = (Some (up 20 30), None) /\ memo (fst (fst r)) (up 20 30) = 65 /\ memo (fst (fst r)) (up 20 30 + 9) = 66 /\
  enabledb ps0 ex0 (st_of es16) (Alloc (str "realloc") 20 0 None 2 (30 * 4096)) = true /\
  option_map p_size (stack_get (st_of es16) (up 10 20)) = Some 10 /\ history ps0 ex0 (tr_of es16) (st_of es16).
Proof. repeat (split; [vm_compute; reflexivity|]). apply of_history. vm_compute. reflexivity. Qed.

(** a reallocation refused by the limit releases the old memory all the same *)
Theorem C16_failed_realloc_refuted : exists tr st ptr, history ps0 ex0 tr st /\ released tr ptr = false /\
  let r := do_realloc ps0 ex0 st (30 * 4096) ptr 200 2 in
  snd (fst r) = None /\ snd (stack_rel ps0 ex0 (fst (fst r)) (str "free") ptr) = Some (FDouble ptr).
Proof.
  exists (tr_of es16), (st_of es16), (up 10 20). split; [apply of_history; vm_compute; reflexivity|].
  repeat (split; [vm_compute; reflexivity|]). vm_compute. reflexivity.
Qed.
Print Assumptions C16_failed_realloc_refuted.

(** C52: the footprint of an open scope is the highest number of live bytes it ever had *)
Theorem C52_footprint_is_peak : forall ps ex, pow2 ps -> forall tr st i b, history ps ex tr st -> no_double_report tr -> limits_ok tr ->
  nth_error (blocks st) i = Some b -> b_footprint b = peak ex tr i.
Proof. exact footprint_is_peak. Qed.
Print Assumptions C52_footprint_is_peak.

Example C52_case : let es := es15 ++ [free (up 60 20); malloc 30 1 60] in
  (peak ex0 (tr_of es) 0, live_bytes ex0 (tr_of es) 0, map b_footprint (blocks (st_of es))) = (100, 70, [100]) /\
  history ps0 ex0 (tr_of es) (st_of es).
Proof. split; [vm_compute; reflexivity|]. apply of_history. vm_compute. reflexivity. Qed.

(** C53: contents of fresh memory: the fill byte of the call or the fill pattern of the scope, repeated, otherwise what
    the system delivered; memory of other allocations is not changed and not shared *)
Theorem C53_contents : forall ps ex, pow2 ps -> forall tr st who size al fill bt base st' q, history ps ex tr st ->
  enabled ps ex st (Alloc who size al fill bt base) ->
  step ps ex st (Alloc who size al fill bt base) = Some (st', OPtr (Some q)) ->
  exists b, target ex st bt = Some b /\
   (forall k, k < size -> memo st' (q + k) =
      match (match fill with Some c => [c] | None => a_fill (b_attrs b) end) with
      | [] => memo st (q + k)
      | s => nth (N.to_nat (k mod N.of_nat (length s))) s 0
      end) /\
   (forall b0 p x, In b0 (blocks st) -> In p (b_pieces b0) -> within x (p_page p) (p_grd p + ps) -> memo st' x = memo st x) /\
   (forall b0 p, In b0 (blocks st) -> In p (b_pieces b0) -> forall k, k < size -> ~ within (q + k) (p_page p) (p_grd p + ps)).
Proof. exact new_contents. Qed.
Print Assumptions C53_contents.

Example C53_case : let st := st_of [Push (mkattrs 100 8 [171; 205] false); malloc 5 1 20; Alloc (str "calloc") 3 0 (Some 0) 1 (30 * 4096)] in
  map (fun k => memo st (up 5 20 + k)) [0; 1; 2; 3; 4] = [171; 205; 171; 205; 171] /\
  map (fun k => memo st (up 3 30 + k)) [0; 1; 2] = [0; 0; 0].
Proof. vm_compute. auto. Qed.

(** calloc clears the memory and counts as an allocation of count * size bytes *)
Theorem C53_calloc : forall ps ex, pow2 ps -> forall tr st count size bt base st' q, history ps ex tr st -> size * count < 2 ^ 64 ->
  enabled ps ex st (Alloc (str "calloc") (size * count) 0 (Some 0) bt base) -> do_calloc ps ex st base count size bt = (st', Some q) ->
  (forall k, k < size * count -> memo st' (q + k) = 0) /\
  history ps ex ((Alloc (str "calloc") (size * count) 0 (Some 0) bt base, OPtr (Some q)) :: tr) st'.
Proof. exact calloc_contents. Qed.
Print Assumptions C53_calloc.

Example C53_calloc_case : let st := st_of [Push (mkattrs 100 8 [171; 205] false); malloc 5 1 20] in
  enabledb ps0 ex0 st (Alloc (str "calloc") 12 0 (Some 0) 1 (30 * 4096)) = true /\
  let r := do_calloc ps0 ex0 st (30 * 4096) 3 4 1 in snd r = Some (up 12 30) /\ map (fun k => memo (fst r) (up 12 30 + k)) [0; 5; 11] = [0; 0; 0].
Proof. vm_compute. auto. Qed.

(** calloc does not notice that count * size overflows: 2^32 * 2^32 bytes are granted as an empty allocation *)
Theorem C53_calloc_overflow_refuted : exists st q st', do_calloc ps0 ex0 st (20 * 4096) (2 ^ 32) (2 ^ 32) 1 = (st', Some q) /\
  map (fun p => p_size p) (flat_map b_pieces (blocks st')) = [0].
Proof.
  exists (st_of [Push at0]), (up 0 20).
  destruct (do_calloc ps0 ex0 (st_of [Push at0]) (20 * 4096) (2 ^ 32) (2 ^ 32) 1) as [s r] eqn:E.
  exists s.
  assert (A : snd (do_calloc ps0 ex0 (st_of [Push at0]) (20 * 4096) (2 ^ 32) (2 ^ 32) 1) = Some (up 0 20)) by (vm_compute; reflexivity).
  assert (B : map (fun p => p_size p) (flat_map b_pieces (blocks (fst (do_calloc ps0 ex0 (st_of [Push at0]) (20 * 4096) (2 ^ 32) (2 ^ 32) 1)))) = [0])
    by (vm_compute; reflexivity).
  rewrite E in A, B. cbn [fst snd] in A, B. subst r. auto.
Qed.
Print Assumptions C53_calloc_overflow_refuted.

(** C54: any first access to cleanly released memory is reported when the scope is closed, with its address *)
Theorem C54_use_after_free : forall ps ex, pow2 ps -> forall tr st i b p who st1 es1 st2 i2 e a w bt st3 es2 st4 st5 fs,
  history ps ex tr st -> nth_error (blocks st) i = Some b -> In p (b_pieces b) -> p_vtimes p = 0 ->
  step ps ex st (Rel who (p_ptr p)) = Some (st1, OFail None) ->
  run ps ex st1 i es1 st2 i2 -> (forall x, In x es1 -> ~ touches (p_page p) (p_grd p + ps) x) ->
  is_access e a w bt -> within a (p_page p) (p_grd p + ps) -> step ps ex st2 e = Some (st3, ONone) ->
  run ps ex st3 i2 es2 st4 0 -> step ps ex st4 Pop = Some (st5, OFails fs) ->
  exists w', In (FViolate (p_ptr p) a w' true) fs.
Proof. exact use_after_free_reported. Qed.
Print Assumptions C54_use_after_free.

(** ... and so is any first write to the page behind a live allocation *)
Theorem C54_guard_write : forall ps ex, pow2 ps -> forall tr st who size al fill bt base st1 q b es1 st2 i2 a v bt2 st3 es2 st4 st5 fs,
  history ps ex tr st -> ex bt = false -> hd_error (blocks st) = Some b ->
  enabled ps ex st (Alloc who size al fill bt base) ->
  step ps ex st (Alloc who size al fill bt base) = Some (st1, OPtr (Some q)) ->
  let g := guard ps base size (if al =? 0 then a_align (b_attrs b) else al) in
  run ps ex st1 0 es1 st2 i2 -> (forall x, In x es1 -> ~ touches g (g + ps) x /\ forall who', x <> Rel who' q) ->
  within a g (g + ps) -> step ps ex st2 (Store a v bt2) = Some (st3, ONone) ->
  run ps ex st3 i2 es2 st4 0 -> step ps ex st4 Pop = Some (st5, OFails fs) ->
  exists w', In (FViolate q a w' false) fs.
Proof. exact guard_write_reported. Qed.
Print Assumptions C54_guard_write.

(** the recorded kind (read or write) of a first offence is right *)
Theorem C54_first_offence : forall p a w bt, p_vtimes p = 0 -> denied p a w = true ->
  let p' := access p a w bt in
  p_vtimes p' <> 0 /\ p_vptr p' = a /\ p_vwrite p' = w /\ p_vafter p' = (0 <? p_freed p) /\ p_vbt p' = bt.
Proof. exact first_offence. Qed.
Print Assumptions C54_first_offence.

Example C54_case : map snd (firstn 1 (tr_of (es1 ++ [Load 5 7; Push at0; Load (up 24 40 + 3) 3; Pop; Store (up 24 40) 1 4; Pop]))) =
  [OFails [FViolate (up 24 40) (up 24 40 + 3) false true]] /\
  map snd (firstn 1 (tr_of (es1 ++ [Store (21 * 4096 + 5) 1 4; Pop]))) = [OFails [FViolate (up 16 20) (21 * 4096 + 5) true false]].
Proof. vm_compute. auto. Qed.

(** reads behind a live allocation are not noticed *)
Theorem C54_guard_read_refuted : exists tr st a, history ps0 ex0 ((Load a 3, ONone) :: tr) st /\
  In (malloc 16 1 20, OPtr (Some (up 16 20))) tr /\ released tr (up 16 20) = false /\ up 16 20 + 16 <= a /\
  outcome_of st Pop = Some (OFails []).
Proof.
  pose (es := [Push (mkattrs 100 8 [] true); malloc 16 1 20]).
  exists (tr_of es), (st_of (es ++ [Load (21 * 4096 + 5) 3])), (21 * 4096 + 5).
  split; [|split; [vm_compute; left; reflexivity|repeat (split; [vm_compute; try discriminate; reflexivity|]); vm_compute; reflexivity]].
  assert (H : history ps0 ex0 (tr_of (es ++ [Load (21 * 4096 + 5) 3])) (st_of (es ++ [Load (21 * 4096 + 5) 3]))) by (apply of_history; vm_compute; reflexivity).
  replace (tr_of (es ++ [Load (21 * 4096 + 5) 3])) with ((Load (21 * 4096 + 5) 3, ONone) :: tr_of es) in H by (vm_compute; reflexivity).
  exact H.
Qed.
Print Assumptions C54_guard_read_refuted.
