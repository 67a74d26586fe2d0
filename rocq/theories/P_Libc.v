(** Final theorems about the private allocator (properties C07-C09). *)
From Coq Require Import List NArith Bool Arith Lia.
From Verif Require Import LibcModel LibcSpec LibcProofs.
Import ListNotations.
Local Open Scope N_scope.

(** an example history: two allocations, then a free; the system maps 4 MiB at 65536 *)
Definition ex_mmap (n : N) : option N := if n =? 4194304 then Some 65536 else None.
Definition ex_s1 := fst (malloc ex_mmap init 100).
Definition ex_s2 := fst (malloc (fun _ => None) ex_s1 3000).
Definition ex_s3 := fst (free ex_s2 4259728).
Example ex_s3_value : ex_s3 =
  mkstate [mkblock 65536 4194304 [(65568, 4191128); (4259720, 120)]] [(4256696, 3024)].
Proof. vm_compute. reflexivity. Qed.
Example ex_reachable : reachable ex_s3 /\ mmap_ok ex_s3 (fun _ => None).
Proof.
  split; [|intros n b H; discriminate].
  apply reach_free with (st := ex_s2) (ptr := 4259728); [|vm_compute; reflexivity].
  apply reach_malloc with (st := ex_s1) (mmap := fun _ => None) (size := 3000) (r := RPtr 4256704);
    [|intros n b H; discriminate|reflexivity|vm_compute; reflexivity].
  apply reach_malloc with (st := init) (mmap := ex_mmap) (size := 100) (r := RPtr 4259728);
    [apply reach_init| |reflexivity|vm_compute; reflexivity].
  intros n b H. unfold ex_mmap in H. destruct (N.eqb_spec n 4194304); [|discriminate]. inversion H; subst.
  repeat split; try reflexivity; try discriminate. intros r [].
Qed.

(** C07: free chunks, live chunks and bookkeeping headers never overlap *)
Theorem C07_no_overlap : forall st, reachable st -> pairwise_disjoint (all_frees st ++ live st ++ headers st).
Proof. exact disjoint_all. Qed.
Print Assumptions C07_no_overlap.

(** ... and all of them lie in memory obtained from the system *)
Theorem C07_inside_mapped_memory : forall st r x, reachable st ->
  In r (all_frees st ++ live st ++ headers st) -> inside x r -> exists g, In g (regions st) /\ inside x g.
Proof. exact inside_region. Qed.
Print Assumptions C07_inside_mapped_memory.

(** a successful allocation: large enough, 8-byte aligned *)
Theorem C07_allocation_size_and_alignment : forall st mmap size st' p,
  reachable st -> mmap_ok st mmap -> size < 2 ^ 64 - 25 ->
  malloc mmap st size = (st', RPtr p) ->
  exists s, live st' = (p - 8, s) :: live st /\ p mod 8 = 0 /\ 8 <= p /\ size <= s - 8.
Proof. exact malloc_safe. Qed.
Print Assumptions C07_allocation_size_and_alignment.

(** every byte the caller may use is mapped and belongs to no other live chunk, free chunk or header *)
Theorem C07_user_bytes_exclusive : forall st mmap size st' p x,
  reachable st -> mmap_ok st mmap -> size < 2 ^ 64 - 25 ->
  malloc mmap st size = (st', RPtr p) -> inside x (p, size) ->
  (exists g, In g (regions st') /\ inside x g) /\
  (forall r, In r (live st ++ all_frees st' ++ headers st') -> ~ inside x r).
Proof. exact malloc_user_range. Qed.
Print Assumptions C07_user_bytes_exclusive.
Example C07_user_bytes_exclusive_ex :
  snd (malloc (fun _ => None) ex_s3 104) = RPtr 4256576 /\
  live (fst (malloc (fun _ => None) ex_s3 104)) = [(4256568, 128); (4256696, 3024)].
Proof. vm_compute. auto. Qed.

(** sizes close to 2^64 wrap around: a request of 2^64-5 bytes is granted 8 bytes *)
Theorem C07_huge_request_refuted : exists size st' p,
  size < 2 ^ 64 /\ mmap_ok init ex_mmap /\ malloc ex_mmap init size = (st', RPtr p) /\ live st' = [(p - 8, 16)].
Proof.
  exists (2 ^ 64 - 5), (mkstate [mkblock 65536 4194304 [(65568, 4194256)]] [(4259824, 16)]), 4259832.
  split; [reflexivity|]. split; [|split; vm_compute; reflexivity].
  intros n b H. unfold ex_mmap in H. destruct (N.eqb_spec n 4194304); [|discriminate]. inversion H; subst.
  repeat split; try reflexivity; try discriminate. intros r [].
Qed.
Print Assumptions C07_huge_request_refuted.

(** C08 *)
Theorem C08_bytes_conserved : forall st, reachable st ->
  total (all_frees st) + total (live st) + 32 * N.of_nat (List.length (blocks st)) = total (regions st).
Proof. exact conserved. Qed.
Print Assumptions C08_bytes_conserved.
Example C08_bytes_conserved_ex : total (all_frees ex_s3) = 4191248 /\ total (live ex_s3) = 3024 /\ total (regions ex_s3) = 4194304.
Proof. vm_compute. auto. Qed.

(** every mapped byte is accounted for by some free chunk, live chunk or header *)
Theorem C08_every_byte_accounted : forall st x, reachable st ->
  (exists g, In g (regions st) /\ inside x g) ->
  exists r, In r (all_frees st ++ live st ++ headers st) /\ inside x r.
Proof. exact tiled. Qed.
Print Assumptions C08_every_byte_accounted.

(** freeing a live pointer always succeeds and returns exactly its bytes to the free chunks *)
Theorem C08_free_returns_bytes : forall st ptr s, reachable st -> In (ptr - 8, s) (live st) -> 8 <= ptr ->
  exists st', free st ptr = (st', RNull) /\ total (all_frees st') = total (all_frees st) + s /\
              total (live st') + s = total (live st) /\ regions st' = regions st.
Proof. exact free_spec. Qed.
Print Assumptions C08_free_returns_bytes.
Example C08_free_returns_bytes_ex : In (4256704 - 8, 3024) (live ex_s3) /\
  all_frees (fst (free ex_s3 4256704)) = [(65568, 4194152); (4259720, 120)].
Proof. vm_compute. auto. Qed.

Theorem C08_all_freed : forall st, reachable st -> live st = [] ->
  total (all_frees st) + 32 * N.of_nat (List.length (blocks st)) = total (regions st).
Proof. exact all_freed. Qed.
Print Assumptions C08_all_freed.

(** C09: with a system that always maps, a request below 2^63 is refused exactly when no free chunk is large enough
    and its padded size t lies within 40 bytes below (or at) a multiple of 4 MiB *)
Theorem C09_null_exactly_in_window : forall st mmap size st' r,
  reachable st -> mmap_ok st mmap -> size < 2 ^ 63 -> malloc mmap st size = (st', r) ->
  let t := (size + 17) / 8 * 8 in
  mmap ((t + 4194303) / 4194304 * 4194304) <> None ->
  (r = RNull <->
   (Forall (fun c => snd c < t + 8) (all_frees st) /\ (t + 4194303) / 4194304 * 4194304 < t + 40)).
Proof. exact malloc_null_iff. Qed.
Print Assumptions C09_null_exactly_in_window.

Theorem C09_succeeds_outside_window : forall st mmap size st' r,
  reachable st -> mmap_ok st mmap -> size < 2 ^ 63 -> malloc mmap st size = (st', r) ->
  let t := (size + 17) / 8 * 8 in
  mmap ((t + 4194303) / 4194304 * 4194304) <> None ->
  t + 40 <= (t + 4194303) / 4194304 * 4194304 -> exists p, r = RPtr p.
Proof. exact malloc_succeeds. Qed.
Print Assumptions C09_succeeds_outside_window.
Definition ex_mmap2 (n : N) : option N := if n =? 8388608 then Some 8388608 else None.
Example C09_succeeds_outside_window_ex :
  mmap_ok ex_s3 ex_mmap2 /\ snd (malloc ex_mmap2 ex_s3 5000000) = RPtr 11777200.
Proof.
  split; [|vm_compute; reflexivity].
  intros n b H. unfold ex_mmap2 in H. destruct (N.eqb_spec n 8388608); [|discriminate]. inversion H; subst.
  repeat split; try reflexivity; try discriminate.
  intros r [<-|[]] (x & [X1 X2] & [X3 X4]). cbn [fst snd base bytes_] in X1, X4. revert X1 X4. vm_compute (base _). vm_compute (bytes_ _). lia.
Qed.

(** a request of 4 MiB - 20 bytes gets null although the system supplied the mapping *)
Theorem C09_always_succeeds_refuted : exists size st', size = 4194284 /\ mmap_ok init ex_mmap /\
  malloc ex_mmap init size = (st', RNull) /\ regions st' = [(65536, 4194304)].
Proof.
  exists 4194284, (mkstate [mkblock 65536 4194304 [(65568, 4194272)]] []).
  split; [reflexivity|]. split; [|split; vm_compute; reflexivity].
  intros n b H. unfold ex_mmap in H. destruct (N.eqb_spec n 4194304); [|discriminate]. inversion H; subst.
  repeat split; try reflexivity; try discriminate. intros r [].
Qed.
Print Assumptions C09_always_succeeds_refuted.
