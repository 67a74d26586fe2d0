(** What the processor does with the patched bytes, and the histories the stub properties speak about. *)
From Coq Require Import List NArith ZArith Bool.
From Verif Require Import StubModel.
Import ListNotations.
Local Open Scope N_scope.

(** x86-64: where does executing the bytes [bs] at [pc] jump to? "jmp rel32", or "movabs $imm64,%rax; jmp *%rax" *)
Definition x86_jump (pc : N) (bs : list N) : option N :=
  match bs with
  | 0xE9 :: b0 :: b1 :: b2 :: b3 :: _ =>
      let rel := b0 + 256 * b1 + 65536 * b2 + 16777216 * b3 in
      let rel := if rel <? 2 ^ 31 then Z.of_N rel else (Z.of_N rel - 2 ^ 32)%Z in
      Some (Z.to_N ((Z.of_N pc + 5 + rel) mod 2 ^ 64))
  | 0x48 :: 0xB8 :: b0 :: b1 :: b2 :: b3 :: b4 :: b5 :: b6 :: b7 :: 0xFF :: 0xE0 :: _ =>
      Some (b0 + 2 ^ 8 * b1 + 2 ^ 16 * b2 + 2 ^ 24 * b3 + 2 ^ 32 * b4 + 2 ^ 40 * b5 + 2 ^ 48 * b6 + 2 ^ 56 * b7)
  | _ => None
  end.
(** the bytes found at an address *)
Definition bytes_at (m : mem) (a : N) (n : nat) : list N := map (fun i => m (a + N.of_nat i)) (seq 0 n).
Definition jumps_to (m : mem) (pc dst : N) : Prop := x86_jump pc (bytes_at m pc 12) = Some dst.

(** where one step of "jmp rel32", "jmp rel8" or "jmp *disp32(%rip)" (with or without REX.W) leads; other code stays *)
Definition s32 (b0 b1 b2 b3 : N) : Z :=
  let v := b0 + 256 * b1 + 65536 * b2 + 16777216 * b3 in if v <? 2 ^ 31 then Z.of_N v else (Z.of_N v - 2 ^ 32)%Z.
Definition s8 (b : N) : Z := if b <? 128 then Z.of_N b else (Z.of_N b - 256)%Z.
Definition wrap (a : Z) : N := Z.to_N (a mod 2 ^ 64).
Definition quad (m : mem) (a : N) : N :=
  m a + 2 ^ 8 * m (a + 1) + 2 ^ 16 * m (a + 2) + 2 ^ 24 * m (a + 3) + 2 ^ 32 * m (a + 4) + 2 ^ 40 * m (a + 5) + 2 ^ 48 * m (a + 6) + 2 ^ 56 * m (a + 7).
Inductive hop (m : mem) (p : N) : N -> Prop :=
| hop_rel32 : m p = 0xE9 -> hop m p (wrap (Z.of_N p + 5 + s32 (m (p + 1)) (m (p + 2)) (m (p + 3)) (m (p + 4))))
| hop_rel8 : m p = 0xEB -> hop m p (wrap (Z.of_N p + 2 + s8 (m (p + 1))))
| hop_abs : m p = 0xFF -> m (p + 1) = 0x25 ->
    hop m p (quad m (wrap (Z.of_N p + 6 + s32 (m (p + 2)) (m (p + 3)) (m (p + 4)) (m (p + 5)))))
| hop_rex : m p = 0x48 -> m (p + 1) = 0xFF -> m (p + 2) = 0x25 ->
    hop m p (quad m (wrap (Z.of_N p + 7 + s32 (m (p + 3)) (m (p + 4)) (m (p + 5)) (m (p + 6)))))
| hop_stay : m p <> 0xE9 -> m p <> 0xEB -> ~ (m p = 0xFF /\ m (p + 1) = 0x25) -> ~ (m p = 0x48 /\ m (p + 1) = 0xFF /\ m (p + 2) = 0x25) ->
    hop m p p.

(** arm64: a literal load into a register followed by a branch to the same register *)
Definition word (b0 b1 b2 b3 : N) : N := b0 + 2 ^ 8 * b1 + 2 ^ 16 * b2 + 2 ^ 24 * b3.
Definition arm_jump (m : mem) (pc : N) : option N :=
  let w0 := word (m pc) (m (pc + 1)) (m (pc + 2)) (m (pc + 3)) in
  let w1 := word (m (pc + 4)) (m (pc + 5)) (m (pc + 6)) (m (pc + 7)) in
  let imm := (w0 / 2 ^ 5) mod 2 ^ 19 in
  let rt := w0 mod 2 ^ 5 in
  if (w0 / 2 ^ 24 =? 0x58) && (imm <? 2 ^ 18) &&
     (w1 / 2 ^ 10 =? 0xD61F0000 / 2 ^ 10) && (w1 mod 2 ^ 5 =? 0) && ((w1 / 2 ^ 5) mod 2 ^ 5 =? rt) then
    let a := pc + 4 * imm in
    Some (word (m a) (m (a + 1)) (m (a + 2)) (m (a + 3)) + 2 ^ 32 * word (m (a + 4)) (m (a + 5)) (m (a + 6)) (m (a + 7)))
  else None.

(** the twelve patched bytes of a function *)
Definition prefix (fp x : N) : Prop := fp <= x < fp + 12.
(** prefixes of different functions do not overlap *)
Definition apart (a b : N) : Prop := a = b \/ a + 12 <= b \/ b + 12 <= a.

(** a function is stubbed while some stub on it exists *)
Definition stubbed (st : state) (fp : N) : Prop := exists scope t, In (scope, t) (stubs st) /\ t_source t = fp.

(** a program may stub any function (reached directly or through one jump) whose prefix is apart from the other ones
    stubbed at that time *)
Definition allowed (st : state) (e : event) : Prop :=
  match e with
  | Add _ src dst => dst < 2 ^ 64 /\ follow st src < 2 ^ 64 /\ forall fp, stubbed st fp -> apart fp (follow st src)
  | _ => True
  end.

(** all executions, starting with original code [m] and no stubs *)
Inductive reach (m : mem) : state -> Prop :=
| r_init : reach m (mkstate m [] [])
| r_step : forall st e, reach m st -> allowed st e -> reach m (step st e).

(** ** nested scopes: substitutes in force, innermost scope first, newest first: (function as named, its code, substitute) *)
Definition frame := list (N * N * N).
Definition ent_src (e : N * N * N) := fst (fst e).
Definition ent_fp (e : N * N * N) := snd (fst e).
Definition ent_dst (e : N * N * N) := snd e.

(** replace the substitute if the scope already has one for this name, else put it in front *)
Definition frame_set (f : frame) (src fp dst : N) : frame :=
  if existsb (fun e => ent_src e =? src) f
  then map (fun e => if ent_src e =? src then (ent_src e, ent_fp e, dst) else e) f
  else (src, fp, dst) :: f.
Definition frame_remove (f : frame) (src : N) : frame := filter (fun e => negb (ent_src e =? src)) f.

(** the substitute in force: the newest in the innermost scope that has one *)
Definition in_force (fs : list frame) (fp : N) : option N :=
  option_map ent_dst (find (fun e => ent_fp e =? fp) (concat fs)).

(** no function is stubbed under two names in this scope *)
Definition no_alias (f : frame) (src fp : N) : Prop := forall e, In e f -> ent_fp e = fp -> ent_src e = src.

(** properly nested executions; the number of open scopes names the innermost one *)
Inductive nested (m : mem) : list frame -> state -> Prop :=
| n_init : nested m [] (mkstate m [] [])
| n_open : forall fs st, nested m fs st -> nested m ([] :: fs) st
| n_close : forall f fs st, nested m (f :: fs) st -> nested m fs (step st (ClearAll (N.of_nat (length fs))))
| n_add : forall f fs st src dst, nested m (f :: fs) st ->
    allowed st (Add (N.of_nat (length fs)) src dst) ->
    no_alias f src (follow st src) ->
    nested m (frame_set f src (follow st src) dst :: fs) (step st (Add (N.of_nat (length fs)) src dst))
| n_clear : forall f fs st src, nested m (f :: fs) st ->
    nested m (frame_remove f src :: fs) (step st (Clear (N.of_nat (length fs)) src)).
