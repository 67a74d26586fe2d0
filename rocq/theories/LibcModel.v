(** Model of the private allocator, source/utils/h2_libc.cpp.
    Addresses and sizes are N; size_t / unsigned long long additions that can overflow wrap explicitly.
    sizeof(buddy::size) = 8, sizeof(buddy) = 24, sizeof(block) = 32 (64-bit build).
    The memory contents are not modelled; the size field in front of a live chunk is the second component of its entry
    in [live] (nothing but the allocator writes there as long as users stay inside their chunks). *)
From Coq Require Import List NArith Bool Arith.
Import ListNotations.
Local Open Scope N_scope.

(** a buddy: address of the header and its field size (h2_libc.cpp:4-10) *)
Notation chunk := (N * N)%type (only parsing).

(** a block: address, field bytes, and the buddies list (h2_libc.cpp:12-15) *)
Record block := mkblock { base : N; bytes_ : N; frees : list chunk }.

(** allocator state: the block chain [next] (h2_libc.cpp:65) and the chunks handed out and not yet freed *)
Record state := mkstate { blocks : list block; live : list chunk }.

(** before the first allocation (h2_libc.cpp:65) *)
Definition init : state := mkstate [] [].

(** the number of values of a 64 bit integer (size_t and unsigned long long of h2_libc.cpp:94-96) *)
Definition two64 : N := 2 ^ 64.
(** brk_size (h2_libc.cpp:69) *)
Definition brk_size : N := 4194304.

(** block constructor (h2_libc.cpp:17-21) *)
Definition new_block (b bytes : N) : block := mkblock b bytes [(b + 32, bytes - 32)].

(** block::malloc (h2_libc.cpp:23-39); [need] is size + sizeof(p->size). Result: remaining buddies and the chunk *)
Fixpoint take (need : N) (fs : list chunk) : option (list chunk * chunk) :=
  match fs with
  | [] => None
  | (a, s) :: r =>
      if need <=? s then
        let left := s - need in
        if 24 + 64 <=? left then Some ((a, left) :: r, (a + left, need))
        else Some (r, (a, s))
      else match take need r with
           | Some (r', c) => Some ((a, s) :: r', c)
           | None => None
           end
  end.

(** the insertion loop of block::free (h2_libc.cpp:44-61) *)
Fixpoint give (c : chunk) (fs : list chunk) : list chunk :=
  match fs with
  | [] => [c]
  | (a, s) :: r =>
      if a + s =? fst c then (a, s + snd c) :: r
      else if fst c + snd c =? a then (fst c, snd c + s) :: r
      else if fst c + snd c <? a then c :: (a, s) :: r
      else (a, s) :: give c r
  end.

(** block::free including its range check (h2_libc.cpp:41-43) *)
Definition block_free (c : chunk) (b : block) : option block :=
  if (fst c <? base b) && (base b + bytes_ b <=? fst c) then None
  else Some (mkblock (base b) (bytes_ b) (give c (frees b))).

(** number of bytes mapped for a request (h2_libc.cpp:69-76); ceil of the double quotient taken exactly *)
Definition batch_bytes (size : N) : N := ((size + brk_size - 1) / brk_size * brk_size) mod two64.

(** alloc (h2_libc.cpp:85-92) *)
Fixpoint alloc (need : N) (bs : list block) : option (list block * chunk) :=
  match bs with
  | [] => None
  | b :: r =>
      match take need (frees b) with
      | Some (fs, c) => Some (mkblock (base b) (bytes_ b) fs :: r, c)
      | None => match alloc need r with
                | Some (r', c) => Some (b :: r', c)
                | None => None
                end
      end
  end.

(** _size: the request plus 10 (h2_libc.cpp:119) rounded up to 8 (h2_libc.cpp:96) *)
Definition rounded (size : N) : N := (((size + 10) mod two64 + 7) mod two64) / 8 * 8.
(** size + sizeof(p->size) (h2_libc.cpp:26) *)
Definition needed (size : N) : N := (rounded size + 8) mod two64.

(** what an allocation returns (h2_libc.cpp:94-104, 116-120) *)
Inductive result :=
| RPtr (p : N)      (* user pointer *)
| RNull             (* nullptr *)
| RAbort            (* mmap failed: abort() *)
| RUB.              (* free of a pointer that is not live *)

(** h2_libc::malloc (h2_libc.cpp:94-104,116-120); [mmap] is the system's answer to the request for that many bytes *)
Definition malloc (mmap : N -> option N) (st : state) (size : N) : state * result :=
  match alloc (needed size) (blocks st) with
  | Some (bs, c) => (mkstate bs (c :: live st), RPtr (fst c + 8))
  | None =>
      let bytes := batch_bytes (rounded size) in
      match mmap bytes with
      | None => (st, RAbort)
      | Some b =>
          let bs := new_block b bytes :: blocks st in
          match alloc (needed size) bs with
          | Some (bs', c) => (mkstate bs' (c :: live st), RPtr (fst c + 8))
          | None => (mkstate bs (live st), RNull)
          end
      end
  end.

(** removal of the live chunk with header address a (the header found at h2_libc.cpp:109) *)
Fixpoint unlive (a : N) (l : list chunk) : option (chunk * list chunk) :=
  match l with
  | [] => None
  | c :: r => if fst c =? a then Some (c, r)
              else match unlive a r with Some (x, r') => Some (x, c :: r') | None => None end
  end.

(** the loop over blocks in free (h2_libc.cpp:110-111) *)
Fixpoint free_in (c : chunk) (bs : list block) : list block :=
  match bs with
  | [] => []
  | b :: r => match block_free c b with Some b' => b' :: r | None => b :: free_in c r end
  end.

(** h2_libc::free (h2_libc.cpp:106-113,122-126) *)
Definition free (st : state) (ptr : N) : state * result :=
  if ptr =? 0 then (st, RNull)
  else if ptr <? 8 then (st, RUB)
  else match unlive (ptr - 8) (live st) with
       | None => (st, RUB)
       | Some (c, l) => (mkstate (free_in c (blocks st)) l, RNull)
       end.
