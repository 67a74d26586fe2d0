(** Model of one checked allocation: source/memory/h2_piece.cpp, source/utils/h2_misc.cpp.
    Sizes and addresses are N, reduced modulo 2^64 where the source computes with size_t. *)
From Coq Require Import List NArith Bool.
Import ListNotations.
Local Open Scope N_scope.

(** size_t arithmetic is modulo 2^64 (64-bit build) (the size_t expressions of h2_piece.cpp:23-38) *)
Definition w64 (x : N) : N := x mod 2 ^ 64.
(** (unsigned) cast: modulo 2^32, h2_piece.cpp:24 *)
Definition w32 (x : N) : N := x mod 2 ^ 32.

(** not2n (h2_misc.cpp:17-20): x & (x - 1) on 32-bit unsigned *)
Definition not2n (x : N) : bool := negb (N.land x (w32 (x + (2 ^ 32 - 1))) =? 0).

(** mask2n (h2_misc.cpp:22-30) *)
Definition mask2n (x : N) : N :=
  let x1 := N.lor x (N.shiftr x 1) in
  let x2 := N.lor x1 (N.shiftr x1 2) in
  let x3 := N.lor x2 (N.shiftr x2 4) in
  let x4 := N.lor x3 (N.shiftr x3 8) in
  N.lor x4 (N.shiftr x4 16).

(** alignment_2n (h2_piece.cpp:23-25), sizeof(void* ) = 8 *)
Definition alignment_2n (al : N) : N :=
  let a := if not2n (w32 al) then mask2n (w32 al) + 1 else al in
  if a <? 8 then 8 else a.

(** user_size_plus (h2_piece.cpp:27) *)
Definition user_size_plus (size al : N) : N :=
  let a := alignment_2n al in
  N.land (w64 (size + a - 1 + a)) (N.lnot (a - 1) 64).

(** page_count (h2_piece.cpp:28); the division and ceil in double are taken as exact, which they are
    for a power-of-two page size and sizes below 2^53 *)
Definition page_count (ps size al : N) : N := (user_size_plus size al + (ps - 1)) / ps.

(** user_ptr (h2_piece.cpp:38) *)
Definition user_ptr (ps base size al : N) : N :=
  w64 (base + ps * page_count ps size al + (2 ^ 64 - user_size_plus size al) + al).

(** first byte of the protected page (h2_piece.cpp:115) *)
Definition guard (ps base size al : N) : N := base + ps * page_count ps size al.

(** memory contents: address to byte (written by memset, h2_piece.cpp:113-114) *)
Definition memory := N -> N.

(** memset (used at h2_piece.cpp:113-114): n bytes from a *)
Definition memset (m : memory) (a n v : N) : memory := fun x => if (a <=? x) && (x <? a + n) then v else m x.

(** mark_snowfield (h2_piece.cpp:109-116): slack before and after the user range gets the canary *)
Definition mark_snowfield (m : memory) (base ptr size grd flower : N) : memory :=
  memset (memset m base (ptr - base) flower) (ptr + size) (grd - (ptr + size)) flower.

(** trailing canary bytes are cut off the displayed spot (h2_piece.cpp:122-124) *)
Fixpoint trim_spot (m : memory) (p : N) (n : nat) (flower : N) : nat :=
  match n with
  | O => O
  | S n' => if m (p + N.of_nat n') =? flower then trim_spot m p n' flower else n
  end.

(** check_snowfield(start, end) (h2_piece.cpp:118-129): [n] is the number of bytes left, [p] the running pointer.
    The result is the reported address and the displayed bytes. *)
Fixpoint check_range (m : memory) (flower : N) (p : N) (n : nat) : option (N * list N) :=
  match n with
  | O => None
  | S n' =>
      if m p =? flower then check_range m flower (p + 1) n'
      else let k := trim_spot m p (Nat.min n 8) flower in
           Some (p, map (fun i => m (p + N.of_nat i)) (seq 0 k))
  end.

(** check_snowfield() (h2_piece.cpp:131-138): after the user range first, then before it *)
Definition check_snowfield (m : memory) (flower base ptr size grd : N) : option (N * list N) :=
  match check_range m flower (ptr + size) (N.to_nat (grd - (ptr + size))) with
  | Some r => Some r
  | None => check_range m flower base (N.to_nat (ptr - base))
  end.
