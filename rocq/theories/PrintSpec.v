(** What a printed value and a diff of two documents show. *)
From Coq Require Import List NArith ZArith Bool Arith Sorting.Permutation.
From Verif Require Import Base ExprModel ExprSpec LineModel JsonModel JsonSpec PrintModel.
Import ListNotations.
Local Open Scope N_scope.

(** ** reading lines *)
(** the visible text of lines: words but the colour marks, a newline behind each line *)
Definition shown (ls : list line) : bytes := concat (map (fun l => text l ++ [10]) ls).

(** values that can be shown: strings, keys without NUL, quote and backslash, keys not empty, numbers printed as numbers of JSON *)
Inductive showable (A : alg) (show : R A -> bytes) : value (R A) -> Prop :=
| Sh_null : showable A show Null
| Sh_bool b : showable A show (Bool b)
| Sh_num x : json_number A x (show x) -> showable A show (Num x)
| Sh_str s : Forall (fun c => c <> 0 /\ c <> 34 /\ c <> 92) s -> showable A show (Str s)
| Sh_pat p : Forall (fun c => c <> 47 /\ c <> 0) p -> showable A show (Pat p)
| Sh_arr l : Forall (showable A show) l -> showable A show (Arr l)
| Sh_obj l : Forall (fun p => fst p <> [] /\ Forall (fun c => c <> 0 /\ c <> 34 /\ c <> 92) (fst p) /\ showable A show (snd p)) l -> showable A show (Obj l).

(** ** duals *)
(** no absent value inside *)
Inductive whole {num} : value num -> Prop :=
| Wh_null : whole Null
| Wh_bool b : whole (Bool b)
| Wh_num x : whole (Num x)
| Wh_str s : whole (Str s)
| Wh_pat s : whole (Pat s)
| Wh_arr l : Forall whole l -> whole (Arr l)
| Wh_obj l : Forall (fun p => whole (snd p)) l -> whole (Obj l).
(** the expected side of a dual is the node of key [k] and value [v]: its children, in their order, each exactly once *)
Inductive left_of {num} (show : num -> bytes) : dual -> bytes -> value num -> Prop :=
| Left h ch k v : e_type h = kind_of v -> e_key h = format_key [34] k -> e_value h = format_value show [34] v ->
    Forall2 (fun d kv => left_of show d (fst kv) (snd kv)) (filter e_present ch) (children v) -> left_of show (Dual h ch) k v.
(** the actual side is the node of key [k] and value [v]: its children, each exactly once; those of an array in their order unless
    it is paired with an object *)
Inductive right_of {num} (show : num -> bytes) : dual -> bytes -> value num -> Prop :=
| Right h ch k v l : a_type h = kind_of v -> a_key h = format_key [34] k -> a_value h = format_value show [34] v ->
    Permutation (children v) l -> (kind_of v = KArr -> e_type h <> KObj -> l = children v) ->
    Forall2 (fun d kv => right_of show d (fst kv) (snd kv)) (filter a_present ch) l -> right_of show (Dual h ch) k v.
(** the same document with the children of objects and arrays, at any depth, in another order *)
Inductive rearranged {num} : value num -> value num -> Prop :=
| Re_same v : rearranged v v
| Re_arr l m l' : Permutation l m -> Forall2 rearranged m l' -> rearranged (Arr l) (Arr l')
| Re_obj l m l' : Permutation l m -> Forall2 (fun p q => fst p = fst q /\ rearranged (snd p) (snd q)) m l' -> rearranged (Obj l) (Obj l').
(** nesting of a value *)
Fixpoint height {num} (v : value num) : nat :=
  match v with
  | Arr l => S (list_max (map height l))
  | Obj l => S (list_max (map (fun p => height (snd p)) l))
  | _ => 1%nat
  end.

(** ** colours *)
(** a word in a style, and back to none behind it *)
Definition painted (style w : bytes) : list bytes := [27 :: 123 :: style ++ [125]; w; 27 :: str "{reset}"].
(** how a value but an array or object is written *)
Inductive written {num} (show : num -> bytes) : value num -> bytes -> Prop :=
| Wr_null : written show Null (str "null")
| Wr_true : written show (Bool true) (str "true")
| Wr_false : written show (Bool false) (str "false")
| Wr_num x : show x <> [] -> written show (Num x) (show x)
| Wr_str s : written show (Str s) (34 :: s ++ [34])
| Wr_pat s : written show (Pat s) (47 :: s ++ [47]).
(** the key in front of an element: its text in quotes, a colon behind it; no key, nothing *)
Definition keyed (style k : bytes) : list bytes := match k with [] => [] | _ => painted style (34 :: k ++ [34]) ++ [str ": "] end.
Definition indented (depth : nat) : list bytes := match depth with O => [] | _ => [repeat 32 (2 * depth)] end.
(** the colour of what differs: on the left and on the right; [apart]: the two were only put side by side *)
Definition left_colour (apart : bool) : bytes := if apart then str "light blue" else str "green".
Definition right_colour (apart : bool) : bytes := if apart then str "light purple" else str "red,bold".
