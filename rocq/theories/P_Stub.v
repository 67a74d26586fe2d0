(** C17-C19, C55: jump patches, undoing stubs, nesting of stubs, temporary restore. *)
From Coq Require Import List NArith ZArith Bool.
From Verif Require Import StubModel StubSpec StubProofs StubProofs2 StubExamples.
Import ListNotations.
Local Open Scope N_scope.

(** executing the patched bytes goes to the substitute, near or far *)
Theorem C17_jump : forall m src dst, src < 2 ^ 64 -> dst < 2 ^ 64 -> jumps_to (e9_set m src dst) src dst.
Proof. exact jump_reaches. Qed.
Print Assumptions C17_jump.

(** nothing outside the saved prefix is written *)
Theorem C17_frame : forall m src dst x, ~ prefix src x -> e9_set m src dst x = m x.
Proof. exact patch_frame. Qed.
Print Assumptions C17_frame.

(** writing the saved bytes back undoes whatever happened to the prefix *)
Theorem C17_undo : forall m m' src x, (forall y, ~ prefix src y -> m' y = m y) -> e9_reset m' src (e9_save m src) x = m x.
Proof. exact save_reset. Qed.
Print Assumptions C17_undo.

(** the arm64 patch also reaches its substitute *)
Theorem C17_arm_jump : forall m src dst, dst < 2 ^ 64 -> arm_jump (arm_set m src dst) src = Some dst.
Proof. exact arm_reaches. Qed.
Print Assumptions C17_arm_jump.

Example C17_case : bytes_at (e9_set m0 0x401000 0x400000) 0x401000 5 = [0xE9; 0xFB; 0xEF; 0xFF; 0xFF] /\
  bytes_at (e9_set m0 0x401000 0x7f0012345678) 0x401000 12 = [0x48; 0xB8; 0x78; 0x56; 0x34; 0x12; 0; 0x7f; 0; 0; 0xFF; 0xE0] /\
  x86_jump 0x401000 (bytes_at (e9_set m0 0x401000 0x400000) 0x401000 12) = Some 0x400000 /\
  x86_jump 0x401000 (bytes_at (e9_set m0 0x401000 0x7f0012345678) 0x401000 12) = Some 0x7f0012345678.
Proof. vm_compute. auto. Qed.

(** at all times, code that is not the prefix of a stubbed function is original *)
Theorem C18_unstubbed_original : forall m st x, reach m st -> (forall fp, stubbed st fp -> ~ prefix fp x) -> code st x = m x.
Proof. exact unstubbed_original. Qed.
Print Assumptions C18_unstubbed_original.

(** once all stubs are gone, whatever the history, all code is original and no bookkeeping is left *)
Theorem C18_all_removed : forall m st, reach m st -> stubs st = [] -> sources st = [] /\ forall x, code st x = m x.
Proof. exact all_removed. Qed.
Print Assumptions C18_all_removed.

(** two scopes, an alias, replacement, removal out of order *)
Example C18_case : reach m0 (run s0 ex18) /\ stubs (run s0 ex18) = [] /\
  stubbed (run s0 (firstn 4 ex18)) 0x1000 /\ length (stubs (run s0 (firstn 4 ex18))) = 3%nat /\
  code (run s0 (firstn 4 ex18)) 0x1000 <> m0 0x1000.
Proof.
  split; [apply run_reach; [constructor|vm_compute; reflexivity]|]. split; [vm_compute; reflexivity|].
  split; [eexists; eexists; split; [right; left; vm_compute; reflexivity|vm_compute; reflexivity]|].
  split; [vm_compute; reflexivity|vm_compute; discriminate].
Qed.

(** functions shorter than the saved prefix: removing the stubs in the order they were made leaves foreign bytes behind *)
Theorem C18_adjacent_short_functions_refuted : exists m es x, stubs (run (mkstate m [] []) es) = [] /\
  code (run (mkstate m [] []) es) x <> m x.
Proof.
  exists m0, [Add 0 0x1000 0x7f0000000000; Add 0 0x1006 0x7f0000000000; Clear 0 0x1000; Clear 0 0x1006], 0x1006.
  split; [vm_compute; reflexivity|vm_compute; discriminate].
Qed.
Print Assumptions C18_adjacent_short_functions_refuted.

(** the substitute in force is the newest of the innermost scope that has one; all other code is original *)
Theorem C19_newest_in_force : forall m fs st, nested m fs st ->
  (forall fp dst, in_force fs fp = Some dst -> jumps_to (code st) fp dst) /\
  (forall x, (forall fp, in_force fs fp <> None -> ~ prefix fp x) -> code st x = m x).
Proof. exact newest_in_force. Qed.
Print Assumptions C19_newest_in_force.

Example C19_case : nested m0 (frames_of (script ex19 [] s0)) (state_of (script ex19 [] s0) m0) /\
  in_force (frames_of (script ex19 [] s0)) 0x1000 = Some 0xB000 /\
  nested m0 (frames_of (script (ex19 ++ [Close]) [] s0)) (state_of (script (ex19 ++ [Close]) [] s0) m0) /\
  in_force (frames_of (script (ex19 ++ [Close]) [] s0)) 0x1000 = Some 0xA100 /\
  in_force (frames_of (script (ex19 ++ [Close; Close]) [] s0)) 0x1000 = Some 0x9000 /\
  in_force (frames_of (script (ex19 ++ [Close; Close; Close]) [] s0)) 0x1000 = None.
Proof.
  split; [apply script_from; vm_compute; reflexivity|]. split; [vm_compute; reflexivity|].
  split; [apply script_from; vm_compute; reflexivity|]. repeat (split; [vm_compute; reflexivity|]). vm_compute; reflexivity.
Qed.

(** a name means the function stubbed at that address if there is one, else the function that one jump there leads to *)
Theorem C19_which_function : forall m st src, reach m st ->
  (stubbed st src -> follow st src = src) /\ (~ stubbed st src -> hop (code st) src (follow st src)).
Proof. exact which_function. Qed.
Print Assumptions C19_which_function.

(** a stub takes effect at once, on that function *)
Theorem C19_takes_effect : forall m st scope src dst, reach m st -> allowed st (Add scope src dst) -> stubs_get st scope src = None ->
  jumps_to (code (step st (Add scope src dst))) (follow st src) dst.
Proof. exact add_takes_effect. Qed.
Print Assumptions C19_takes_effect.

(** the import stub leads to 0x1000; once 0x1000 is patched to jump to 0x9000 it still means itself *)
Example C19_which_case : follow s0 alias_at = 0x1000 /\ hop m0 alias_at 0x1000 /\
  let st := step s0 (Add 0 alias_at 0x9000) in
  stubbed st 0x1000 /\ code st 0x1000 = 0xE9 /\ follow st 0x1000 = 0x1000 /\ allowed st (Add 1 0x1000 0xA000) /\ stubs_get st 1 0x1000 = None.
Proof.
  split; [vm_compute; reflexivity|]. split; [exact (hop_rel32 m0 alias_at eq_refl)|]. cbv zeta.
  split; [eexists; eexists; split; [left; vm_compute; reflexivity|vm_compute; reflexivity]|].
  split; [vm_compute; reflexivity|]. split; [vm_compute; reflexivity|]. split; [apply allowedb_ok; vm_compute; reflexivity|vm_compute; reflexivity].
Qed.

(** two names for one function in one scope: removing the older stub disables the newer one, which is still there *)
Theorem C19_alias_refuted : exists m es, reach m (run (mkstate m [] []) es) /\
  stubs_get (run (mkstate m [] []) es) 0 0x1000 <> None /\
  (forall dst, ~ jumps_to (code (run (mkstate m [] []) es)) 0x1000 dst).
Proof.
  exists m0, [Add 0 alias_at 0x9000; Add 0 0x1000 0xA000; Clear 0 alias_at].
  split; [apply run_reach; [constructor|vm_compute; reflexivity]|]. split; [vm_compute; discriminate|].
  intros dst H. unfold jumps_to in H. revert H. match goal with |- ?a = _ -> _ => replace a with (@None N) by (vm_compute; reflexivity) end. discriminate.
Qed.
Print Assumptions C19_alias_refuted.

(** scopes that are not nested: clearing the older scope first makes the newer stub of the other scope ineffective *)
Theorem C19_unnested_refuted : exists m es, reach m (run (mkstate m [] []) es) /\
  stubs_get (run (mkstate m [] []) es) 1 0x1000 <> None /\
  (forall dst, ~ jumps_to (code (run (mkstate m [] []) es)) 0x1000 dst).
Proof.
  exists m0, [Add 0 0x1000 0x9000; Add 1 0x1000 0xA000; ClearAll 0].
  split; [apply run_reach; [constructor|vm_compute; reflexivity]|]. split; [vm_compute; discriminate|].
  intros dst H. unfold jumps_to in H. revert H. match goal with |- ?a = _ -> _ => replace a with (@None N) by (vm_compute; reflexivity) end. discriminate.
Qed.
Print Assumptions C19_unnested_refuted.

(** while a mock's routine runs the function itself is original; afterwards the patch is exactly as before *)
Theorem C55_temporary_restore : forall m st src junk, reach m st ->
  let r := temporary_begin st src in
  (forall x, prefix (follow st src) x -> stubbed st (follow st src) -> code (fst r) x = m x) /\
  (follow (fst r) src = follow st src -> forall x, code (temporary_end (fst r) src (snd r) junk) x = code st x).
Proof. exact temporary. Qed.
Print Assumptions C55_temporary_restore.

Example C55_case : let st := run s0 [Add 0 0x1000 0x9000; Add 1 0x1000 0xA000] in
  reach m0 st /\ stubbed st (follow st 0x1000) /\ follow (fst (temporary_begin st 0x1000)) 0x1000 = follow st 0x1000 /\
  code st 0x1000 = 0xE9 /\ code (fst (temporary_begin st 0x1000)) 0x1000 = 0x55.
Proof.
  cbv zeta. split; [apply run_reach; [constructor|vm_compute; reflexivity]|].
  split; [eexists; eexists; split; [left; vm_compute; reflexivity|vm_compute; reflexivity]|].
  vm_compute. auto.
Qed.

(** a stub placed on the function while its mock routine runs is lost when the routine returns *)
Theorem C55_stub_during_call_refuted : exists m es, let st := run (mkstate m [] []) es in
  reach m st /\ let r := temporary_begin st 0x1000 in
  let st' := temporary_end (step (fst r) (Add 0 0x1000 0xB000)) 0x1000 (snd r) [] in
  allowed (fst r) (Add 0 0x1000 0xB000) /\ jumps_to (code st') 0x1000 0x9000.
Proof.
  exists m0, [Add 0 0x1000 0x9000]. cbv zeta. split; [apply run_reach; [constructor|vm_compute; reflexivity]|].
  split; [apply allowedb_ok; vm_compute; reflexivity|vm_compute; reflexivity].
Qed.
Print Assumptions C55_stub_during_call_refuted.
