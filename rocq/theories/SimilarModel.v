(** Model of the likeness of JSON nodes (source/json/h2_match.cpp:47-95) and of the JSON diff (source/json/h2_dual.cpp) that uses it.

    Scores are double in the code and exact rationals here; the texts compared are C strings.  A null, a boolean and a number have an
    empty value_string (h2_syntax.cpp:29-47, 76-79). *)
From Coq Require Import List NArith ZArith QArith Bool Arith.
From Verif Require Import Base FilterModel StrModel DiffModel JsonModel PrintModel.
Import ListNotations.
Local Open Scope Q_scope.

(** value_string (h2_node.cpp:14; h2_syntax.cpp:65-85) *)
Definition value_string {num} (v : value num) : bytes := match v with Str s | Pat s => s | _ => [] end.
(** the type of two nodes is the same (h2_match.cpp:74) *)
Definition same_kind (k l : kind) : bool :=
  match k, l with
  | KAbsent, KAbsent | KNull, KNull | KBool, KBool | KNum, KNum | KStr, KStr | KPat, KPat | KArr, KArr | KObj, KObj => true
  | _, _ => false
  end.
(** one step of sub_score (h2_match.cpp:52, 61) *)
Definition tally (i : nat) (sub x : Q) : Q := sub + (sub * inject_Z (Z.of_nat i) + x) / inject_Z (Z.of_nat (S i)).
(** the size's share and the children's share (h2_match.cpp:49-53, 58-62) *)
Definition blend (same_size : bool) (sub : Q) : Q := (if same_size then 3 # 10 else 0) + (7 # 10) * sub.
(** the key's share (h2_match.cpp:78-80) *)
Definition keyed (cl : bool) (ke ka : bytes) (s : Q) : Q :=
  match ke, ka with [], [] => s | _, _ => s * (1 # 2) + (1 # 2) * estimate cl (StrModel.c_str ke) (StrModel.c_str ka) end.
(** similarity (h2_match.cpp:65-82), with array_similarity (47-54) and object_similarity (56-63); a->get(i) is h2_node.cpp:33-40,
    a->get(key, false) is h2_node.cpp:42-48 *)
Fixpoint similarity {num} (cl : bool) (ke : bytes) (e : value num) (ka : bytes) (a : value num) {struct e} : Q :=
  keyed cl ke ka
    match e, a with
    | Arr le, Arr la =>
        blend (length le =? length la)%nat
          ((fix go (i : nat) (sub : Q) (l : list (value num)) : Q :=
              match l with
              | [] => sub
              | x :: r => go (S i) (tally i sub match nth_error la i with Some y => similarity cl [] x [] y | None => 0 end) r
              end) O 0 le)
    | Obj le, Obj la =>
        blend (length le =? length la)%nat
          ((fix go (i : nat) (sub : Q) (l : list (bytes * value num)) : Q :=
              match l with
              | [] => sub
              | (k, x) :: r => go (S i) (tally i sub match find (fun p => str_equals false (fst p) k) la with Some (k', y) => similarity cl k x k' y | None => 0 end) r
              end) O 0 le)
    | _, _ => if same_kind (kind_of e) (kind_of a) then estimate cl (StrModel.c_str (value_string e)) (StrModel.c_str (value_string a)) else 0
    end.
(** score > max_score (h2_match.cpp:89) *)
Definition beats (s m : Q) : bool := negb (Qle_bool s m).
(** similarity of two nodes of a list (h2_match.cpp:88) *)
Definition node_similarity {num} (cl : bool) (e a : node num) : Q := similarity cl (fst (snd e)) (snd (snd e)) (fst (snd a)) (snd (snd a)).
(** h2_json_match::search (h2_match.cpp:83-95), max_score 0.2 at first: the node found and the list without it (h2_dual.cpp:27-30, 58) *)
Definition search {num} (cl : bool) (e : node num) (al : list (node num)) : option (node num * list (node num)) :=
  by_search num Q beats (1 # 5) node_similarity cl e al.
(** the dual of two nodes (h2_dual.cpp:42-71) with this similarity *)
Definition dual_of {num} (show : num -> bytes) near pat (fuel : nat) (cl : bool) (depth : nat) (rel : bool) (e a : option (node num)) : dual :=
  mk_dual num show near pat Q beats (1 # 5) node_similarity fuel cl depth rel e a.
(** similarity of two members, key and value (h2_match.cpp:65-82) *)
Definition likeness {num} (cl : bool) (p q : bytes * value num) : Q := similarity cl (fst p) (snd p) (fst q) (snd q).
