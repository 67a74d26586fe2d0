(** What an arm64 processor does with the instructions of which linkers make stubs (Arm Architecture Reference Manual, C6.2: ADRP, LDR
    (immediate, unsigned offset), LDR (literal), ADD (immediate), BR). *)
From Coq Require Import List NArith ZArith Bool.
From Verif Require Import StubModel StubSpec.
Import ListNotations.
Local Open Scope N_scope.

(** the instruction at an address *)
Definition instruction (m : mem) (a : N) : N := m a + 2 ^ 8 * m (a + 1) + 2 ^ 16 * m (a + 2) + 2 ^ 24 * m (a + 3).
(** bits [from] to [from + n - 1] *)
Definition field (w from n : N) : N := (w / 2 ^ from) mod 2 ^ n.
Definition two (bits v : N) : Z := if v <? 2 ^ (bits - 1) then Z.of_N v else (Z.of_N v - 2 ^ Z.of_N bits)%Z.
(** the forms of instructions; registers are below 31 *)
Inductive instr := Adrp (d : N) (pages : Z) | Load (t n : N) (offset : N) | Literal (t : N) (offset : Z) | AddImm (d n imm : N) | Br (n : N).
Inductive decodes (w : N) : instr -> Prop :=
| d_adrp : field w 31 1 = 1 -> field w 24 5 = 16 -> field w 0 5 < 31 -> decodes w (Adrp (field w 0 5) (two 21 (4 * field w 5 19 + field w 29 2)))
| d_load : field w 22 10 = 997 -> field w 0 5 < 31 -> field w 5 5 < 31 -> decodes w (Load (field w 0 5) (field w 5 5) (8 * field w 10 12))
| d_literal : field w 24 8 = 88 -> field w 0 5 < 31 -> decodes w (Literal (field w 0 5) (4 * two 19 (field w 5 19)))
| d_add : field w 22 10 = 580 -> field w 0 5 < 31 -> field w 5 5 < 31 -> decodes w (AddImm (field w 0 5) (field w 5 5) (field w 10 12))
| d_br : field w 10 22 = 3508160 -> field w 0 5 = 0 -> field w 5 5 < 31 -> decodes w (Br (field w 5 5)).
Definition set_reg (r : N -> N) (d v : N) : N -> N := fun x => if x =? d then v else r x.
(** one step: registers and address of the next instruction *)
Inductive steps (m : mem) : (N -> N) * N -> (N -> N) * N -> Prop :=
| s_adrp r pc d p : decodes (instruction m pc) (Adrp d p) -> steps m (r, pc) (set_reg r d (wrap (Z.of_N (pc - pc mod 4096) + 4096 * p)), pc + 4)
| s_load r pc t n o : decodes (instruction m pc) (Load t n o) -> steps m (r, pc) (set_reg r t (quad m (wrap (Z.of_N (r n + o)))), pc + 4)
| s_literal r pc t o : decodes (instruction m pc) (Literal t o) -> steps m (r, pc) (set_reg r t (quad m (wrap (Z.of_N pc + o))), pc + 4)
| s_add r pc d n i : decodes (instruction m pc) (AddImm d n i) -> steps m (r, pc) (set_reg r d (wrap (Z.of_N (r n + i))), pc + 4)
| s_br r pc n : decodes (instruction m pc) (Br n) -> steps m (r, pc) (r, r n).
Inductive runs (m : mem) : (N -> N) * N -> (N -> N) * N -> Prop :=
| r_done s : runs m s s
| r_step s t u : steps m s t -> runs m t u -> runs m s u.

(** stubs: load an address that lies at a forward distance, below 16 kB within its page, and go there; by a page address in x16, perhaps
    completed before the branch, or by an address near the code *)
Inductive trampoline (m : mem) (p : N) : N -> Prop :=
| t_plt pages o : decodes (instruction m p) (Adrp 16 pages) -> (0 <= pages)%Z -> decodes (instruction m (p + 4)) (Load 17 16 o) -> o < 16384 -> decodes (instruction m (p + 8)) (Br 17) ->
    trampoline m p (quad m (wrap (Z.of_N (p - p mod 4096) + 4096 * pages + Z.of_N o)))
| t_plt_add pages o i : decodes (instruction m p) (Adrp 16 pages) -> (0 <= pages)%Z -> decodes (instruction m (p + 4)) (Load 17 16 o) -> o < 16384 -> decodes (instruction m (p + 8)) (AddImm 16 16 i) ->
    decodes (instruction m (p + 12)) (Br 17) ->
    trampoline m p (quad m (wrap (Z.of_N (p - p mod 4096) + 4096 * pages + Z.of_N o)))
| t_near o : decodes (instruction m p) (Literal 17 o) -> (0 <= o)%Z -> decodes (instruction m (p + 4)) (Br 17) -> trampoline m p (quad m (wrap (Z.of_N p + o))).
(** other code: neither begins with a page address in x16 and a load from there, nor with a load from near the code and a branch.
    Bits 27 to 31 of a load from near the code are 01011. *)
Definition ordinary (m : mem) (p : N) : Prop :=
  ~ ((exists pages, decodes (instruction m p) (Adrp 16 pages)) /\ exists o, decodes (instruction m (p + 4)) (Load 17 16 o)) /\
  ~ (field (instruction m p) 27 5 = 11 /\ field (instruction m (p + 4)) 10 22 = 3508160 /\ field (instruction m (p + 4)) 0 5 = 0).
(** so many stubs one behind the other, then other code *)
Inductive chain (m : mem) : N -> nat -> N -> Prop :=
| c_end p : ordinary m p -> chain m p 0 p
| c_hop p q k t : trampoline m p q -> chain m q k t -> chain m p (S k) t.
(** memory holds bytes *)
Definition sound (m : mem) : Prop := forall a, m a < 256.
