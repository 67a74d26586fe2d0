(** What a JSON text, a match and a path mean. *)
From Coq Require Import List NArith ZArith Bool Arith Sorting.Permutation.
From Verif Require Import Base StrSpec ExprModel ExprSpec JsonModel.
Import ListNotations.
Local Open Scope N_scope.

(** ** texts of values *)
(** white space of C *)
Definition ws (s : bytes) : Prop := Forall (fun c => c = 32 \/ (9 <= c /\ c <= 13)) s.
(** a string literal between quotes [q] (double or single): plain characters other than the quote, backslash and NUL, and the escapes of C42 *)
Definition quoted_text (content s : bytes) : Prop :=
  exists q l, (q = 34 \/ q = 39) /\ s = q :: StrSpec.written l ++ [q] /\ denotes l content /\ Forall (fun p => match p with Plain c => c <> q /\ c <> 0 | Esc _ => True end) l.
(** a number: an expression of C41 without commas, blanks only inside *)
Definition number_text (A : alg) (x : R A) (s : bytes) : Prop :=
  exists ts t, ExprSpec.written ts s /\ derives LList ts t /\ x = eval A t /\ ~ In 44 s /\
  (forall c r, s = c :: r -> c <> 32 /\ c <> 9) /\ (forall c r, s = r ++ [c] -> c <> 32 /\ c <> 9).
(** the texts of a value; commas separate, white space anywhere *)
Inductive jtext (A : alg) : value (R A) -> bytes -> Prop :=
| T_null : jtext A Null (str "null")
| T_true : jtext A (Bool true) (str "true")
| T_false : jtext A (Bool false) (str "false")
| T_num x s : number_text A x s -> jtext A (Num x) s
| T_str c s : quoted_text c s -> jtext A (Str c) s
| T_pat p : Forall (fun c => c <> 47 /\ c <> 0) p -> jtext A (Pat p) (47 :: p ++ [47])
| T_empty_arr w : ws w -> jtext A (Arr []) (91 :: w ++ [93])
| T_arr l s : jitems A l s -> jtext A (Arr l) (91 :: s ++ [93])
| T_empty_obj w : ws w -> jtext A (Obj []) (123 :: w ++ [125])
| T_obj l s : jmembers A l s -> jtext A (Obj l) (123 :: s ++ [125])
with jitems (A : alg) : list (value (R A)) -> bytes -> Prop :=
| I_last v w1 t w2 : ws w1 -> ws w2 -> jtext A v t -> jitems A [v] (w1 ++ t ++ w2)
| I_more v w1 t w2 l s : ws w1 -> ws w2 -> jtext A v t -> jitems A l s -> jitems A (v :: l) (w1 ++ t ++ w2 ++ 44 :: s)
with jmembers (A : alg) : list (bytes * value (R A)) -> bytes -> Prop :=
| M_last k kt v w1 w2 w3 t w4 : ws w1 -> ws w2 -> ws w3 -> ws w4 -> quoted_text k kt -> jtext A v t -> jmembers A [(k, v)] (w1 ++ kt ++ w2 ++ 58 :: w3 ++ t ++ w4)
| M_more k kt v w1 w2 w3 t w4 l s : ws w1 -> ws w2 -> ws w3 -> ws w4 -> quoted_text k kt -> jtext A v t -> jmembers A l s ->
    jmembers A ((k, v) :: l) (w1 ++ kt ++ w2 ++ 58 :: w3 ++ t ++ w4 ++ 44 :: s).
(** a document: a value with white space around *)
Definition document (A : alg) (v : value (R A)) (s : bytes) : Prop := exists w1 t w2, ws w1 /\ ws w2 /\ jtext A v t /\ s = w1 ++ t ++ w2.
(** an array or an object that is never closed *)
Inductive unclosed : bytes -> Prop :=
| Un_array w s : ws w -> ~ In 0 s -> ~ In 93 s -> unclosed (w ++ 91 :: s)
| Un_object w s : ws w -> ~ In 0 s -> ~ In 125 s -> unclosed (w ++ 123 :: s).
(** a value with an array or an object behind it *)
Definition doubled (A : alg) (s : bytes) : Prop :=
  exists v t w1 w v' t' w2, ws w1 /\ ws w /\ ws w2 /\ jtext A v t /\ jtext A v' t' /\ ((exists l, v' = Arr l) \/ (exists l, v' = Obj l)) /\ s = w1 ++ t ++ w ++ t' ++ w2.
(** a number as JSON has it: an optional minus and a decimal literal *)
Definition json_number (A : alg) (x : R A) (s : bytes) : Prop :=
  exists d, decimal d /\ ((s = d /\ x = lit A d) \/ (s = 45 :: d /\ x = app1 A (str "negate") (lit A d))).
(** the values with a text: no NUL or backslash in strings, no slash in patterns, numbers with a number text *)
Inductive writable (A : alg) : value (R A) -> Prop :=
| Wr_null : writable A Null
| Wr_bool b : writable A (Bool b)
| Wr_num x : (exists s, number_text A x s) -> writable A (Num x)
| Wr_str s : Forall (fun c => c <> 0 /\ c <> 92) s -> writable A (Str s)
| Wr_pat p : Forall (fun c => c <> 47 /\ c <> 0) p -> writable A (Pat p)
| Wr_arr l : Forall (writable A) l -> writable A (Arr l)
| Wr_obj l : Forall (fun p => Forall (fun c => c <> 0 /\ c <> 92) (fst p) /\ writable A (snd p)) l -> writable A (Obj l).

(** ** matching *)
Section Matching.
Variable num : Type.
Variable near : num -> num -> bool.
Variable pat : bool -> bytes -> bytes -> bool.
Variable cl : bool.
(** the value under a key: the first member whose key is that one (in the case mode) *)
Definition under (k : bytes) (l : list (bytes * value num)) (v : value num) : Prop :=
  exists l1 k' l2, l = l1 ++ (k', v) :: l2 /\ fold_str cl k' = fold_str cl k /\ Forall (fun p => fold_str cl (fst p) <> fold_str cl k) l1.
(** when an actual value meets an expected one *)
Inductive meets : value num -> value num -> Prop :=
| M_null : meets Null Null
| M_bool b : meets (Bool b) (Bool b)
| M_num x y : near x y = true -> meets (Num x) (Num y)
| M_str s t : fold_str cl s = fold_str cl t -> meets (Str s) (Str t)
| M_pat p s : pat cl p s = true -> meets (Pat p) (Str s)
| M_arr le la : Forall2 meets le la -> meets (Arr le) (Arr la)
| M_obj le la : (length le <= length la)%nat -> Forall (fun p => exists v, under (fst p) la v /\ meets (snd p) v) le -> meets (Obj le) (Obj la).
(** no pattern, nothing absent, no key twice in an object *)
Inductive plain_doc : value num -> Prop :=
| P_null : plain_doc Null
| P_bool b : plain_doc (Bool b)
| P_num x : plain_doc (Num x)
| P_str s : plain_doc (Str s)
| P_arr l : Forall plain_doc l -> plain_doc (Arr l)
| P_obj l : NoDup (map (fun p => fold_str cl (fst p)) l) -> Forall (fun p => plain_doc (snd p)) l -> plain_doc (Obj l).
(** no key twice in any object *)
Inductive unique_keys : value num -> Prop :=
| U_leaf v : (forall l, v <> Arr l) -> (forall l, v <> Obj l) -> unique_keys v
| U_arr l : Forall unique_keys l -> unique_keys (Arr l)
| U_obj l : NoDup (map (fun p => fold_str cl (fst p)) l) -> Forall (fun p => unique_keys (snd p)) l -> unique_keys (Obj l).
(** the same document with the members of objects, at any depth, in another order *)
Inductive shuffled : value num -> value num -> Prop :=
| S_same v : shuffled v v
| S_arr l l' : Forall2 shuffled l l' -> shuffled (Arr l) (Arr l')
| S_obj l m l' : Permutation l m -> Forall2 (fun p q => fst p = fst q /\ shuffled (snd p) (snd q)) m l' -> shuffled (Obj l) (Obj l').
End Matching.

(** ** paths *)
(** one step taken: the value under a key; the value at a position, negative ones from the end *)
Definition stepped {num} (cl : bool) (v : value num) (s : step) (w : value num) : Prop :=
  match s with
  | Key k => match v with Obj l => under num cl k l w | _ => False end
  | Index i =>
      let at_pos (vs : list (value num)) := exists a b, vs = a ++ w :: b /\ (i = Z.of_nat (length a) \/ (i < 0 /\ - i = Z.of_nat (length (w :: b)))%Z) in
      match v with Arr l => at_pos l | Obj l => at_pos (map snd l) | _ => False end
  end.
(** a path followed *)
Inductive path {num} (cl : bool) : value num -> list step -> value num -> Prop :=
| Path_nil v : path cl v [] v
| Path_step v s w l z : stepped cl v s w -> path cl w l z -> path cl v (s :: l) z.
(** no white space at either end, not empty *)
Definition trimmed (s : bytes) : Prop := s <> [] /\ (forall c r, s = c :: r -> ~ (c = 32 \/ (9 <= c /\ c <= 13))) /\ (forall c r, s = r ++ [c] -> ~ (c = 32 \/ (9 <= c /\ c <= 13))).
(** decimal digits of a number *)
Inductive decimal_of : Z -> bytes -> Prop :=
| Dec_one d : 48 <= d -> d <= 57 -> decimal_of (Z.of_N d - 48) [d]
| Dec_more z s d : decimal_of z s -> 48 <= d -> d <= 57 -> decimal_of (10 * z + (Z.of_N d - 48)) (s ++ [d]).
(** the text of a step: .key, [key], ["key"], ['key'], [12], [-1] with white space inside dots and brackets *)
Inductive step_text : step -> bytes -> Prop :=
| St_dot k w1 w2 : trimmed k -> ws w1 -> ws w2 -> Forall (fun c => c <> 46 /\ c <> 91 /\ c <> 0) k -> step_text (Key k) (46 :: w1 ++ k ++ w2)
| St_bare k w1 w2 : trimmed k -> ws w1 -> ws w2 -> Forall (fun c => c <> 93 /\ c <> 0) k -> (exists c, In c k /\ c <> 45 /\ ~ digit c) -> hd 0 k <> 34 -> hd 0 k <> 39 -> step_text (Key k) (91 :: w1 ++ k ++ w2 ++ [93])
| St_quoted q k w1 w2 : (q = 34 \/ q = 39) -> k <> [] -> ws w1 -> ws w2 -> Forall (fun c => c <> 93 /\ c <> 0) k -> step_text (Key k) (91 :: w1 ++ (q :: k ++ [q]) ++ w2 ++ [93])
| St_index z s w1 w2 : decimal_of z s -> ws w1 -> ws w2 -> step_text (Index z) (91 :: w1 ++ s ++ w2 ++ [93])
| St_back z s w1 w2 : decimal_of z s -> ws w1 -> ws w2 -> step_text (Index (- z)) (91 :: w1 ++ (45 :: s) ++ w2 ++ [93]).
(** the text of a path: the texts of its steps in a row *)
Inductive path_text : list step -> bytes -> Prop :=
| Pt_nil : path_text [] []
| Pt_step s t l r : step_text s t -> path_text l r -> path_text (s :: l) (t ++ r).
