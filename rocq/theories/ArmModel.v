(** Model of following jumps on arm64: source/symbol/h2_cxa.cpp:58-102 (the branch for __arm64__ and __aarch64__).

    Memory is a map from addresses to bytes, as in StubModel.  unsigned long and unsigned long long have 64 bits, little endian.  Shifting a
    negative number to the left (h2_cxa.cpp:63, 90) is taken modulo 2^64.  Code does not lie at the very end of the address space: the
    addresses of the next opcodes do not wrap. *)
From Coq Require Import List NArith ZArith Bool.
From Verif Require Import StubModel.
Import ListNotations.
Local Open Scope N_scope.

(** sign_extend (h2_cxa.cpp:58-65); a negative result is its 64-bit pattern *)
Definition sign_extend (value bits : N) : N :=
  let left := 64 - bits in
  let wide := N.shiftl value left mod 2 ^ 64 in
  let sign := if 2 ^ 63 <=? wide then 2 ^ 64 - 2 ^ left else 0 in
  N.lor value sign.
(** fetch_opcode (h2_cxa.cpp:67-70): the eight bytes from opcode number [i] on *)
Definition fetch_opcode (m : mem) (fp i : N) : N := unle (get m (fp + i * 4) 8).
(** ~(~0ULL << n) (h2_cxa.cpp:89, 91) *)
Definition low_ones (n : N) : N := N.ones n.
(** one round of the loop of follow_jmp (h2_cxa.cpp:76-100) *)
Definition arm_round (m : mem) (fp : N) : N :=
  if N.land (fetch_opcode m fp 0) 0x9f00001f =? N.lor 0x90000000 16 then
    if N.land (fetch_opcode m fp 1) 0xffe003ff =? N.lor (N.lor 0xf9400000 (N.shiftl 16 5)) 17 then
      if (N.land (fetch_opcode m fp 2) 0xfffffc1f =? 0xd61f0000) || (N.land (fetch_opcode m fp 3) 0xfffffc1f =? 0xd61f0000) then
        let low2 := N.land (N.shiftr (fetch_opcode m fp 0) 29) 3 in
        let high19 := N.land (N.shiftr (fetch_opcode m fp 0) 5) (low_ones 19) in
        let page := N.shiftl (sign_extend (N.lor (N.shiftl high19 2) low2) 21) 12 mod 2 ^ 64 in
        let offset := N.shiftl (N.land (N.shiftr (fetch_opcode m fp 1) 10) (low_ones 12)) 3 in
        let target_p := (N.land fp 0xfffffffffffff000 + page + offset) mod 2 ^ 64 in
        unle (get m target_p 8)
      else fp
    else fp
  else if N.land (fetch_opcode m fp 0) 0xf8000000 =? 0x58000000 then
    if N.land (fetch_opcode m fp 1) 0xfffffc1f =? 0xd61f0000 then
      let n := N.shiftr (N.land (fetch_opcode m fp 0) 0x07ffffe0) 3 in
      unle (get m ((fp + n) mod 2 ^ 64) 8)
    else fp
  else fp.
(** follow_jmp(fp, n) (h2_cxa.cpp:74-102) *)
Fixpoint arm_follow (m : mem) (fp : N) (n : nat) : N := match n with O => fp | S n' => arm_follow m (arm_round m fp) n' end.
