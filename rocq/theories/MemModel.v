(** Model of the checked heap: source/memory/h2_piece.cpp, h2_block.cpp, h2_leaky.cpp, h2_stack.cpp, h2_override.cpp and the
    fault handler of source/except/h2_crash.cpp.
    Backtraces are opaque numbers; whether a backtrace involves an exempted function (bt.in(h2_exempt::I().fps),
    h2_stack.cpp:28, h2_piece.cpp:154) is the fixed predicate [ex]. [ps] is the page size. The address the system returns
    for a mapping is an input of the allocation. The -W options that turn failures into warnings are not modelled. *)
From Coq Require Import List NArith Bool.
From Verif Require Import Base PieceModel.
Import ListNotations.
Local Open Scope N_scope.

(** h2_piece (h2_piece.cpp:1-19); p_grd is page_ptr + page_size * page_count. forbidden region: p_flo .. p_fhi with
    permission bits p_fr (readable), p_fw (writable). *)
Record piece := mkpiece {
  p_page : N; p_ptr : N; p_size : N; p_grd : N; p_who : list N; p_bt : N; p_freed : N; p_flower : N;
  p_flo : N; p_fhi : N; p_fr : bool; p_fw : bool;
  p_vtimes : N; p_vptr : N; p_vwrite : bool; p_vafter : bool; p_vbt : N }.

(** h2_block_attributes (h2_block.cpp:1-6) *)
Record attrs := mkattrs { a_limit : N; a_align : N; a_fill : list N; a_noleak : bool }.
(** default attributes (h2_block.cpp:2-6) *)
Definition default_attrs : attrs := mkattrs (2 ^ 48 - 1) 8 [] false.

(** h2_block (h2_block.cpp:31-40) *)
Record block := mkblock { b_attrs : attrs; b_footprint : N; b_allocated : N; b_pieces : list piece }.

(** h2_stack::blocks, most recently pushed first (h2_stack.cpp:1-10), plus memory contents and the running canary *)
Record state := mkstate { blocks : list block; memo : memory; flower : N }.

(** leak::sizes (h2_leaky.cpp:5): size and number of occurrences *)
Record leak := mkleak { l_ptr : N; l_bt : N; l_sizes : list (N * N) }.

(** failures of the memory checks (the h2_fail objects made at h2_piece.cpp:118-169, h2_block.cpp and h2_leaky.cpp, cited one by one) *)
Inductive fail :=
| FDouble (ptr : N)                                  (* new_double_free, h2_piece.cpp:166 *)
| FAsym (ptr : N) (who_alloc who_rel : list N)       (* new_asymmetric_free, h2_piece.cpp:155 *)
| FOverflow (ptr size addr : N) (spot : list N)      (* new_overflow, h2_piece.cpp:126 *)
| FViolate (ptr addr : N) (write after_free : bool)  (* new_use_after_free / new_overflow, h2_piece.cpp:140-144 *)
| FLeak (ptr total : N) (sizes : list (N * N)) (bt : N). (* new_memory_leak, h2_leaky.cpp:27 *)

Section Mem.
(** the page size (h2_page_size, h2_misc.cpp:126-135) *)
Variable ps : N.
(** which call stacks are exempted (bt.in(h2_exempt::I().fps), h2_stack.cpp:28, 39) *)
Variable ex : N -> bool.

(** h2_in (h2_misc.cpp:137-145) *)
Definition h2_in (a : list N) (l : list (list N)) : bool := existsb (bytes_eqb a) l.

(** condition of check_asymmetric_free (h2_piece.cpp:146-158) *)
Definition asymmetric (who_allocate who_release : list N) (bt : N) : bool :=
  if h2_in who_allocate [str "malloc"; str "calloc"; str "realloc"; str "posix_memalign"; str "aligned_alloc"]
     && h2_in who_release [str "free"] then false
  else if h2_in who_allocate [str "new"; str "new nothrow"; str "new[]"; str "new[] nothrow"]
     && h2_in who_release [str "delete"; str "delete nothrow"; str "delete[]"; str "delete[] nothrow"] then false
  else negb (ex bt).

(** h2_piece::free (h2_piece.cpp:171-178) with check_double_free (160-169) and set_forbidden (52-69) *)
Definition piece_free (m : memory) (p : piece) (who : list N) : piece * option fail :=
  let p' := mkpiece (p_page p) (p_ptr p) (p_size p) (p_grd p) (p_who p) (p_bt p) (p_freed p + 1) (p_flower p)
              (p_flo p) (p_fhi p) (p_fr p) (p_fw p) (p_vtimes p) (p_vptr p) (p_vwrite p) (p_vafter p) (p_vbt p) in
  if negb (p_freed p =? 0) then (p', Some (FDouble (p_ptr p)))
  else if asymmetric (p_who p) who (p_bt p) then (p', Some (FAsym (p_ptr p) (p_who p) who))
  else match check_snowfield m (p_flower p) (p_page p) (p_ptr p) (p_size p) (p_grd p) with
       | Some (a, spot) => (p', Some (FOverflow (p_ptr p) (p_size p) a spot))
       | None => (mkpiece (p_page p) (p_ptr p) (p_size p) (p_grd p) (p_who p) (p_bt p) (p_freed p + 1) (p_flower p)
                    (p_page p) (p_grd p + ps) false false (p_vtimes p) (p_vptr p) (p_vwrite p) (p_vafter p) (p_vbt p), None)
       end.

(** h2_piece::h2_piece (h2_piece.cpp:21-41,109-116) on the mapping at [base] *)
Definition piece_new (fl base size al : N) (who : list N) (bt : N) : piece :=
  mkpiece base (user_ptr ps base size al) size (guard ps base size al) who bt 0 fl
    (guard ps base size al) (guard ps base size al + ps) true false 0 0 false false 0.

(** filling loop (h2_block.cpp:84-92) *)
Definition fill_bytes (m : memory) (ptr size : N) (s : list N) : memory :=
  match s with
  | [] => m
  | _ => fun x => if (ptr <=? x) && (x <? ptr + size) then nth (N.to_nat ((x - ptr) mod N.of_nat (length s))) s 0 else m x
  end.

(** h2_block::new_piece (h2_block.cpp:72-96); None = nullptr *)
Definition block_new (b : block) (m : memory) (fl base : N) (who : list N) (size al : N) (fill : option N) (bt : N)
  : option (block * memory * piece) :=
  if a_limit (b_attrs b) <? w64 (b_allocated b + size) then None
  else
    let allocated := w64 (b_allocated b + size) in
    let footprint := if b_footprint b <? allocated then allocated else b_footprint b in
    let al' := if al =? 0 then a_align (b_attrs b) else al in
    let p := piece_new fl base size al' who bt in
    let m1 := mark_snowfield m (p_page p) (p_ptr p) (p_size p) (p_grd p) fl in
    let m2 := fill_bytes m1 (p_ptr p) size (match fill with Some c => [c] | None => a_fill (b_attrs b) end) in
    Some (mkblock (b_attrs b) footprint allocated (b_pieces b ++ [p]), m2, p).

(** replace the last (bottom) block, h2_list_bottom_entry (h2_stack.cpp:28) *)
Fixpoint update_last {A} (l : list A) (x : A) : list A :=
  match l with [] => [] | [_] => [x] | y :: r => y :: update_last r x end.

(** h2_stack::new_piece (h2_stack.cpp:25-30); the canary is incremented for every piece (h2_piece.cpp:111-112) *)
Definition stack_new (st : state) (base : N) (who : list N) (size al : N) (fill : option N) (bt : N) : state * option piece :=
  let fl := (flower st + 1) mod 256 in
  if ex bt then
    match rev (blocks st) with
    | [] => (st, None)
    | b :: _ => match block_new b (memo st) fl base who size al fill bt with
                | None => (st, None)
                | Some (b', m, p) => (mkstate (update_last (blocks st) b') m fl, Some p)
                end
    end
  else
    match blocks st with
    | [] => (st, None)
    | b :: r => match block_new b (memo st) fl base who size al fill bt with
                | None => (st, None)
                | Some (b', m, p) => (mkstate (b' :: r) m fl, Some p)
                end
    end.

(** h2_block::get_piece + rel_piece (h2_block.cpp:98-109): the first piece with that user pointer is released *)
Fixpoint pieces_rel (m : memory) (l : list piece) (who : list N) (ptr : N) : option (list piece * N * option fail) :=
  match l with
  | [] => None
  | p :: r =>
      if p_ptr p =? ptr then let (p', f) := piece_free m p who in Some (p' :: r, p_size p, f)
      else match pieces_rel m r who ptr with
           | None => None
           | Some (r', s, f) => Some (p :: r', s, f)
           end
  end.

(** h2_stack::rel_piece (h2_stack.cpp:32-42); [allocated] wraps (h2_block.cpp:100) *)
Fixpoint blocks_rel (m : memory) (bs : list block) (who : list N) (ptr : N) : option (list block * option fail) :=
  match bs with
  | [] => None
  | b :: r =>
      match pieces_rel m (b_pieces b) who ptr with
      | Some (l, s, f) => Some (mkblock (b_attrs b) (b_footprint b) (w64 (b_allocated b + (2 ^ 64 - s))) l :: r, f)
      | None => match blocks_rel m r who ptr with
                | None => None
                | Some (r', f) => Some (b :: r', f)
                end
      end
  end.

(** the release entry points free / operator delete (h2_override.cpp:7-10,61-76); an unknown pointer changes nothing *)
Definition stack_rel (st : state) (who : list N) (ptr : N) : state * option fail :=
  match blocks_rel (memo st) (blocks st) who ptr with
  | None => (st, None)
  | Some (bs, f) => (mkstate bs (memo st) (flower st), f)
  end.

(** h2_stack::get_piece (h2_stack.cpp:44-51) *)
Definition stack_get (st : state) (ptr : N) : option piece :=
  find (fun p => p_ptr p =? ptr) (flat_map b_pieces (blocks st)).

(** leak::add (h2_leaky.cpp:17-21) *)
Fixpoint sizes_add (l : list (N * N)) (size : N) : list (N * N) :=
  match l with
  | [] => [(size, 1)]
  | (s, n) :: r => if s =? size then (s, n + 1) :: r else (s, n) :: sizes_add r size
  end.

(** h2_leaky::add (h2_leaky.cpp:41-45) *)
Fixpoint leaky_add (l : list leak) (ptr size bt : N) : list leak :=
  match l with
  | [] => [mkleak ptr bt (sizes_add [] size)]
  | k :: r => if l_bt k =? bt then mkleak (l_ptr k) (l_bt k) (sizes_add (l_sizes k) size) :: r
              else k :: leaky_add r ptr size bt
  end.

(** leak::check (h2_leaky.cpp:23-28) *)
Definition leak_fail (k : leak) : fail :=
  FLeak (l_ptr k) (fold_left (fun s p => w64 (s + fst p * snd p)) (l_sizes k) 0) (l_sizes k) (l_bt k).

(** the unreleased pieces are grouped (h2_block.cpp:53-56) *)
Definition leaky_of (l : list piece) : list leak :=
  fold_left (fun k p => if p_freed p =? 0 then leaky_add k (p_ptr p) (p_size p) (p_bt p) else k) l [].

(** h2_block::check (h2_block.cpp:42-70): the chain of sibling failures *)
Definition block_check (b : block) : list fail :=
  match filter (fun p => negb (p_vtimes p =? 0)) (b_pieces b) with
  | (_ :: _) as v => map (fun p => FViolate (p_ptr p) (p_vptr p) (p_vwrite p) (p_vafter p)) v
  | [] => if a_noleak (b_attrs b) then [] else map leak_fail (leaky_of (b_pieces b))
  end.

(** h2_stack::push (h2_stack.cpp:6-10) *)
Definition stack_push (st : state) (a : attrs) : state :=
  mkstate (mkblock a 0 0 [] :: blocks st) (memo st) (flower st).

(** h2_stack::pop (h2_stack.cpp:12-18); None = null dereference on an empty stack *)
Definition stack_pop (st : state) : option (state * list fail) :=
  match blocks st with
  | [] => None
  | b :: r => Some (mkstate r (memo st) (flower st), block_check b)
  end.

(** in_page_range (h2_piece.cpp:180-183) *)
Definition in_page_range (p : piece) (a : N) : bool := (p_page p <=? a) && (a <? p_grd p + ps).

(** violate_forbidden (h2_piece.cpp:83-106) *)
Definition violate (p : piece) (a bt : N) : piece :=
  if p_vtimes p =? 0 then
    mkpiece (p_page p) (p_ptr p) (p_size p) (p_grd p) (p_who p) (p_bt p) (p_freed p) (p_flower p)
      (p_flo p) (p_fhi p) true false 1 a false (0 <? p_freed p) bt
  else
    mkpiece (p_page p) (p_ptr p) (p_size p) (p_grd p) (p_who p) (p_bt p) (p_freed p) (p_flower p)
      (p_flo p) (p_fhi p) true true (p_vtimes p + 1) (p_vptr p) (if bt =? p_vbt p then true else p_vwrite p) (p_vafter p) (p_vbt p).

(** does the page protection (mprotect at h2_piece.cpp:67) stop the access? *)
Definition denied (p : piece) (a : N) (write : bool) : bool :=
  (p_flo p <=? a) && (a <? p_fhi p) && negb (if write then p_fw p else p_fr p).

(** one memory access of the program under test to an address of the piece's pages: while the protection denies it the
    handler runs and the access is retried (h2_crash.cpp:21-38, h2_piece.cpp:85-93); two faults open the page *)
Definition access (p : piece) (a : N) (write : bool) (bt : N) : piece :=
  let p1 := if denied p a write then violate p a bt else p in
  if denied p1 a write then violate p1 a bt else p1.

(** update the first piece hosting the address (host_piece, h2_block.cpp:111-116) *)
Fixpoint pieces_host (l : list piece) (a : N) (f : piece -> piece) : option (list piece) :=
  match l with
  | [] => None
  | p :: r => if in_page_range p a then Some (f p :: r)
              else match pieces_host r a f with None => None | Some r' => Some (p :: r') end
  end.
(** host_piece over the stack (h2_stack.cpp:53-60) *)
Fixpoint blocks_host (bs : list block) (a : N) (f : piece -> piece) : list block :=
  match bs with
  | [] => []
  | b :: r => match pieces_host (b_pieces b) a f with
              | Some l => mkblock (b_attrs b) (b_footprint b) (b_allocated b) l :: r
              | None => b :: blocks_host r a f
              end
  end.

(** a load of the program under test (the fault of a read-protected page is handled at h2_crash.cpp:23-33) *)
Definition do_load (st : state) (a bt : N) : state :=
  mkstate (blocks_host (blocks st) a (fun p => access p a false bt)) (memo st) (flower st).
(** a store of the program under test (the fault of a write-protected page is handled at h2_crash.cpp:23-33) *)
Definition do_store (st : state) (a v bt : N) : state :=
  mkstate (blocks_host (blocks st) a (fun p => access p a true bt)) (fun x => if x =? a then v else memo st x) (flower st).

(** memcpy of n bytes (h2_override.cpp:27) *)
Definition memcpy (m : memory) (dst src n : N) : memory :=
  fun x => if (dst <=? x) && (x <? dst + n) then m (src + (x - dst)) else m x.

(** realloc (h2_override.cpp:21-30) with a non-null pointer, not on macOS; None = nullptr *)
Definition do_realloc (st : state) (base ptr size bt : N) : state * option N * option fail :=
  let old := stack_get st ptr in
  let (st1, np) := if size =? 0 then (st, None) else stack_new st base (str "realloc") size 0 None bt in
  let st2 := match old, np with
             | Some o, Some n => mkstate (blocks st1) (memcpy (memo st1) (p_ptr n) (p_ptr o) (N.min (p_size o) size)) (flower st1)
             | _, _ => st1
             end in
  let (st3, f) := stack_rel st2 (str "free") ptr in
  (st3, option_map p_ptr np, f).

(** calloc (h2_override.cpp:16-20): size * count wraps, fill byte 0 *)
Definition do_calloc (st : state) (base count size bt : N) : state * option N :=
  let (st', np) := stack_new st base (str "calloc") (w64 (size * count)) 0 (Some 0) bt in
  (st', option_map p_ptr np).

(** events of a program under test, and what it observes (calls into h2_override.cpp and h2_memory.cpp:46-73, cited one by one; loads and stores of the program) *)
Inductive event :=
| Push (a : attrs)                                                   (* h2_stack.cpp:6, h2_memory.cpp:46-53,63-68 *)
| Pop                                                                (* h2_stack.cpp:12, h2_memory.cpp:54-57,69-73 *)
| Alloc (who : list N) (size al : N) (fill : option N) (bt base : N) (* h2_override.cpp:11-20,31-60 *)
| Rel (who : list N) (ptr : N)                                       (* h2_override.cpp:7-10,61-76 *)
| Load (a bt : N)
| Store (a v bt : N).
(** outcome of an event (what the calls return, h2_override.cpp, or raise, h2_memory.cpp:54, 71) *)
Inductive outcome := ONone | OPtr (r : option N) | OFail (f : option fail) | OFails (f : list fail).

(** one event; None = crash of the framework itself (pop on an empty stack) (h2_override.cpp and h2_memory.cpp:46-73) *)
Definition step (st : state) (e : event) : option (state * outcome) :=
  match e with
  | Push a => Some (stack_push st a, ONone)
  | Pop => match stack_pop st with None => None | Some (st', f) => Some (st', OFails f) end
  | Alloc who size al fill bt base =>
      let (st', p) := stack_new st base who size al fill bt in Some (st', OPtr (option_map p_ptr p))
  | Rel who ptr => let (st', f) := stack_rel st who ptr in Some (st', OFail f)
  | Load a bt => Some (do_load st a bt, ONone)
  | Store a v bt => Some (do_store st a v bt, ONone)
  end.
End Mem.
