(** What the report of a memory failure, of an exception and of a function not found has to show. *)
From Coq Require Import List NArith ZArith Bool Arith.
From Verif Require Import Base LineSpec JunitSpec DumpSpec MessageSpec.
Import ListNotations.
Local Open Scope N_scope.

Definition nl : bytes := [10].
Definition darkgray : styles := [str "dark gray"].
Definition yellow : styles := [str "yellow"].
(** an address that is not null *)
Definition address (p : N) (t : bytes) : Prop := exists d, hexed d p /\ t = str "0x" ++ d.
Definition an_address (p : N) : Prop := 0 < p < 2 ^ 64.
(** a number with its sign *)
Definition signed (z : Z) (t : bytes) : Prop := exists d, decimal d (Z.abs_N z) /\ t = (if (z <? 0)%Z then str "-" else str "+") ++ d.
Definition int_range (z : Z) : Prop := (- 2 ^ 31 <= z < 2 ^ 31)%Z.
(** a byte as two hexadecimal digits *)
Definition byte_hex (b : N) (t : bytes) : Prop := Hex t b /\ length t = 2%nat.

(** a function of h2unit itself *)
Definition own (f : bytes) : Prop := (exists r, f = str "h2::" ++ r) \/ (exists a r, f = a ++ str ": h2::" ++ r).
Definition shows_frame (f : bytes) (o : list (styles * byte)) : Prop := (own f -> o = letters darkgray f) /\ (~ own f -> o = letters [] f).
(** the frames numbered from [i] on, one a line, [pad] columns from the left *)
Inductive shows_trace (pad : nat) : N -> list bytes -> list (styles * byte) -> Prop :=
| T_nil i : shows_trace pad i [] []
| T_cons i f fs d x o : decimal d i -> shows_frame f x -> shows_trace pad (i + 1) fs o ->
    shows_trace pad i (f :: fs) (letters [] (repeat 32 pad) ++ letters darkgray (d ++ str ". ") ++ x ++ letters [] nl ++ o).
Definition calm_frames (fs : list bytes) : Prop := Forall (fun f => ~ In 27 f) fs.

(** a size and how many times it was allocated *)
Definition shows_size (p : N * N) (o : list (styles * byte)) : Prop :=
  exists d, decimal d (fst p) /\ (snd p <= 1 -> o = letters [] d) /\ (1 < snd p -> exists e, decimal e (snd p) /\ o = letters [] d ++ letters darkgray (str "x") ++ letters [] e).
(** separated by commas *)
Fixpoint joined (os : list (list (styles * byte))) : list (styles * byte) :=
  match os with [] => [] | [o] => o | o :: r => o ++ letters darkgray (str ", ") ++ joined r end.
(** all the sizes; if [brief] the first three of them and the number of the others *)
Definition shows_sizes (brief : bool) (sizes : list (N * N)) (o : list (styles * byte)) : Prop :=
  (brief = false \/ (length sizes <= 3)%nat -> exists os, Forall2 shows_size sizes os /\ o = joined os) /\
  (brief = true -> (3 < length sizes)%nat -> exists os d, Forall2 shows_size (firstn 3 sizes) os /\ decimal d (N.of_nat (length sizes) - 3) /\ o = joined os ++ letters darkgray (str ", ..." ++ d)).
(** the number of pieces *)
Definition pieces (sizes : list (N * N)) : N := fold_right (fun p n => snd p + n) 0 sizes.

Definition shows_leak (brief : bool) (ptr size : N) (sizes : list (N * N)) (place filine : bytes) (frames : list bytes) (o : list (styles * byte)) : Prop :=
  exists t d b z tr, address ptr t /\ decimal d size /\ shows_place filine z /\ shows_trace 3 0 frames tr /\
    (pieces sizes <= 1 -> b = []) /\ (1 < pieces sizes -> exists l, shows_sizes brief sizes l /\ b = letters darkgray (str "[") ++ l ++ letters darkgray (str "] ")) /\
    o = letters [] (str " " ++ t) ++ letters red (str " memory leak ") ++ letters [str "red"] d ++ letters [] (str " ") ++ b ++ letters [] (str "bytes in " ++ place ++ str " totally") ++ z ++ letters [] nl ++
        letters [] (str "  which allocate at backtrace:" ++ nl) ++ tr.
Definition shows_double_free (ptr : N) (allocate release again : list bytes) (o : list (styles * byte)) : Prop :=
  exists t a r g, address ptr t /\ shows_trace 3 0 allocate a /\ shows_trace 3 0 release r /\ shows_trace 2 0 again g /\
    o = letters [] (str " " ++ t) ++ letters red (str " double free") ++ letters [] (str " at backtrace:" ++ nl) ++ g ++
        letters [] (str "  which allocate at backtrace:" ++ nl) ++ a ++ letters [] (str "  already free at backtrace:" ++ nl) ++ r.
Definition shows_asymmetric (ptr : N) (who_allocate who_release : bytes) (known : Prop) (allocate release : list bytes) (o : list (styles * byte)) : Prop :=
  exists t a r, address ptr t /\ shows_trace 2 0 release r /\
    (~ known -> a = []) /\ (known -> exists x, shows_trace 3 0 allocate x /\ a = letters [] (str "  which allocate at backtrace:" ++ nl) ++ x) /\
    o = letters [] (str " " ++ t ++ str " allocate with ") ++ letters red who_allocate ++ letters [] (str ", release by ") ++ letters red who_release ++
        letters [] (str " asymmetrically at backtrace:" ++ nl) ++ r ++ a.
(** where memory beside a block is, from its end on and from its begin back, and the word for it *)
Inductive beside (ptr size violate : N) : Z -> bytes -> Prop :=
| B_behind : ptr + size <= violate -> beside ptr size violate (Z.of_N (violate - (ptr + size))) (str "overflow")
| B_before : violate < ptr -> beside ptr size violate (- Z.of_N (ptr - violate)) (str "underflow").
Definition shows_overflow (ptr violate : N) (z : Z) (word action : bytes) (spot : list N) (known : Prop) (allocate trample : list bytes) (o : list (styles * byte)) : Prop :=
  exists t s v xs a b, address ptr t /\ signed z s /\ address violate v /\ Forall2 byte_hex spot xs /\ shows_trace 3 0 allocate a /\
    (~ known -> b = letters [] nl) /\ (known -> exists x, shows_trace 3 0 trample x /\ b = letters [] (str " at backtrace:" ++ nl) ++ x) /\
    o = letters [] (str " " ++ t ++ str " ") ++ letters red s ++ letters [] (str " ") ++ letters darkgray (str "(") ++ letters [] v ++ letters darkgray (str ")") ++ letters [] (str " ") ++ letters red action ++
        letters [] (str " " ++ word ++ str " ") ++ letters red (concat (map (fun x => x ++ str " ") xs)) ++ b ++ letters [] (str "  which allocate at backtrace:" ++ nl) ++ a.
Definition shows_use_after_free (ptr violate : N) (z : Z) (action : bytes) (allocate release use : list bytes) (o : list (styles * byte)) : Prop :=
  exists t s v a r u, address ptr t /\ signed z s /\ address violate v /\ shows_trace 3 0 allocate a /\ shows_trace 3 0 release r /\ shows_trace 2 0 use u /\
    o = letters [] (str " " ++ t ++ str " ") ++ letters red s ++ letters [] (str " ") ++ letters darkgray (str "(") ++ letters [] v ++ letters darkgray (str ")") ++ letters [] (str " ") ++
        letters red (action ++ str " after free") ++ letters [] (str " at backtrace:" ++ nl) ++ u ++ letters [] (str "  which allocate at backtrace:" ++ nl) ++ a ++
        letters [] (str "  and free at backtrace:" ++ nl) ++ r.
Definition shows_exception (type : bytes) (explain : list bytes) (filine : bytes) (thrown : list bytes) (o : list (styles * byte)) : Prop :=
  exists z t, shows_place filine z /\ shows_trace 3 0 thrown t /\
    o = letters [] (str " exception ") ++ letters [str "red"] type ++ letters [] (str " ") ++ ink [] explain ++ z ++ letters [] (str " at backtrace:" ++ nl) ++ t.
(** the functions of a name, numbered from [i] on *)
Inductive shows_candidates : N -> list bytes -> list (styles * byte) -> Prop :=
| C_nil i : shows_candidates i [] []
| C_cons i c cs d o : decimal d i -> shows_candidates (i + 1) cs o -> shows_candidates i (c :: cs) (letters [] (str "  ") ++ letters darkgray (d ++ str ". ") ++ letters yellow c ++ letters [] nl ++ o).
Definition shows_symbol (symbol : bytes) (candidates explain : list bytes) (o : list (styles * byte)) : Prop :=
  exists w c x, (candidates = [] -> w = str " Not found ") /\ (candidates <> [] -> w = str " Find multiple ") /\ shows_candidates 0 candidates c /\
    (void explain -> x = []) /\ (~ void explain -> x = ink [] explain ++ letters [] nl) /\
    o = letters yellow w ++ letters red symbol ++ letters [] nl ++ c ++ x.
