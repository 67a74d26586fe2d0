(** Model of source/utils/h2_diff.cpp: edit distance, similarity and longest common subsequence. *)
From Coq Require Import List NArith ZArith QArith Bool Arith.
From Verif Require Import Base.
Import ListNotations.
Local Open Scope N_scope.

(** size_t -> int -> size_t round trip of [prevCol[i] = (int)i] (h2_diff.cpp:6). *)
Definition through_int (i : N) : N :=
  let r := i mod 2 ^ 32 in if r <? 2 ^ 31 then r else r + (2 ^ 64 - 2 ^ 32).

(** the counter values 0..prevCol.size()-1 of the initialising loop (h2_diff.cpp:5). *)
Fixpoint iota (start : N) (n : nat) : list N :=
  match n with O => [] | S n' => start :: iota (start + 1) n' end.

(** Initial column: for i in 0..n2: prevCol[i] = (int)i  (h2_diff.cpp:4-6). *)
Definition lev_init (s2 : bytes) : list N := List.map through_int (iota 0 (S (List.length s2))).

(** Inner loop (h2_diff.cpp:9-12). [left] is col[j]; [prev] starts at prevCol[j].
    The arrays are traversed in step with s2, so they are rendered as lists. *)
Fixpoint lev_inner (caseless : bool) (c1 : byte) (s2 : bytes) (prev : list N) (left : N) : list N :=
  match s2, prev with
  | c2 :: s2', d :: ((u :: _) as prev') =>
      let eq := char_eq caseless c1 c2 in
      let v := N.min (N.min (1 + left) (1 + u)) (d + (if eq then 0 else 1)) in
      v :: lev_inner caseless c1 s2' prev' v
  | _, _ => []
  end.

(** Outer loop (h2_diff.cpp:7-14): [i] counts processed characters of s1, [prev] is prevCol. *)
Fixpoint lev_outer (caseless : bool) (s1 s2 : bytes) (i : N) (prev : list N) : list N :=
  match s1 with
  | [] => prev
  | c1 :: s1' =>
      let col := (i + 1) :: lev_inner caseless c1 s2 prev (i + 1) in
      lev_outer caseless s1' s2 (i + 1) col
  end.

(** h2_similarity::levenshtein (h2_diff.cpp:2-16); result prevCol[n2]. *)
Definition levenshtein (caseless : bool) (s1 s2 : bytes) : N :=
  List.nth (List.length s2) (lev_outer caseless s1 s2 0 (lev_init s2)) 0.

(** h2_similarity::estimate (h2_diff.cpp:19-24). The double arithmetic is replaced by exact rationals:
    1 - lev / ((n1+n2) * 0.5). *)
Definition estimate (caseless : bool) (s1 s2 : bytes) : Q :=
  match s1, s2 with
  | [], [] => 1%Q
  | _, _ => (1 - inject_Z (Z.of_N (levenshtein caseless s1 s2))
                 / (inject_Z (Z.of_nat (List.length s1 + List.length s2)) * (1 # 2)))%Q
  end.

(** ** h2_LCS (h2_diff.cpp:28-99) *)

(** matrix cell: the bit fields e and c (24 bits); p and d are produced by the traceback (h2_diff.cpp:31-34). *)
Record cell := mkcell { cell_c : N; cell_e : bool }.
(** zero initialised cell (h2_diff.cpp:82). *)
Definition cell0 : cell := mkcell 0 false.
(** assignment to the 24-bit field c (declared at h2_diff.cpp:32). *)
Definition wrap24 (x : N) : N := x mod 2 ^ 24.

Section LCS.
  (** elements of the sequences compared (h2_diff.cpp:28-99: characters here, h2_string elements there) *)
  Variable A : Type.
  (** their comparison (h2_string::equals with the case mode, h2_diff.cpp:43) *)
  Variable eqb : A -> A -> bool.

  (** one row of LCS_cacluate (h2_diff.cpp:42-54): [up] is the previous row starting at column j-1,
      [left] is cell (i, j-1). *)
  Fixpoint lcs_row (x : A) (s2 : list A) (up : list cell) (left : cell) : list cell :=
    match s2, up with
    | y :: s2', ul :: ((u :: _) as up') =>
        let cur :=
          if eqb x y then mkcell (wrap24 (cell_c ul + 1)) true
          else mkcell (if cell_c left <? cell_c u then cell_c u else cell_c left) false in
        cur :: lcs_row x s2' up' cur
    | _, _ => []
    end.

  (** all rows (h2_diff.cpp:41-55 with the zero initialised row 0 and column 0 of line 82). *)
  Fixpoint lcs_rows (s1 s2 : list A) (up : list cell) : list (list cell) :=
    match s1 with
    | [] => []
    | x :: s1' => let row := cell0 :: lcs_row x s2 up cell0 in row :: lcs_rows s1' s2 row
    end.

  (** the full (n1+1) x (n2+1) matrix (h2_diff.cpp:41-55, 82). *)
  Definition lcs_matrix (s1 s2 : list A) : list (list cell) :=
    let row0 := List.repeat cell0 (S (List.length s2)) in row0 :: lcs_rows s1 s2 row0.

  (** m[i][j] (h2_diff.cpp:46-52, 60-76). *)
  Definition at_ (m : list (list cell)) (i j : nat) : cell := List.nth j (List.nth i m []) cell0.

  (** LCS_traceback (h2_diff.cpp:58-78); returns the cells whose p bit gets set.
      The recursion is bounded by i+j; running out of fuel is [None]. *)
  Fixpoint traceback (fuel : nat) (m : list (list cell)) (i j : nat) : option (list (nat * nat)) :=
    match fuel with
    | O => None
    | S fuel' =>
        match i, j with
        | O, _ => Some []
        | _, O => Some []
        | S i', S j' =>
            let cur := at_ m i j in
            let dg := at_ m i' j' in
            let up := at_ m i' j in
            let lf := at_ m i j' in
            if cell_e cur || ((cell_c up <=? cell_c dg) && (cell_c lf <=? cell_c dg)) then
              match traceback fuel' m i' j' with
              | Some r => Some (if cell_e cur then (i, j) :: r else r)
              | None => None
              end
            else if cell_c lf <? cell_c up then traceback fuel' m i' j
            else traceback fuel' m i j'
        end
    end.

  (** l1[i]: some cell of row i has its p bit set (h2_diff.cpp:88-90). *)
  Definition marked_row (ps : list (nat * nat)) (i : nat) : bool := existsb (fun p => Nat.eqb (fst p) i) ps.
  (** l2[j]: some cell of column j has its p bit set (h2_diff.cpp:91-94). *)
  Definition marked_col (ps : list (nat * nat)) (j : nat) : bool := existsb (fun p => Nat.eqb (snd p) j) ps.

  (** h2_LCS::lcs (h2_diff.cpp:80-98) *)
  Definition lcs (s1 s2 : list A) : option (list bool * list bool) :=
    let m := lcs_matrix s1 s2 in
    match traceback (S (List.length s1 + List.length s2)) m (List.length s1) (List.length s2) with
    | Some ps => Some (List.map (marked_row ps) (List.seq 1 (List.length s1)),
                       List.map (marked_col ps) (List.seq 1 (List.length s2)))
    | None => None
    end.
End LCS.

(** instantiation used by h2_fail_strcmp::print (source/report/h2_failure.cpp:148-149): elements are
    (UTF-8) characters as strings compared with h2_string::equals. *)
Definition lcs_strings (caseless : bool) (s1 s2 : list bytes) : option (list bool * list bool) :=
  lcs bytes (str_equals caseless) s1 s2.
