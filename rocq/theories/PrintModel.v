(** Model of the printing of JSON values (source/json/h2_node.cpp:58-107), of h2_lines (source/utils/h2_line.cpp:156-199) and of the
    JSON diff (source/json/h2_dual.cpp).

    A line is a list of words (LineModel).  Numbers are of an abstract type; [show] is std::to_string as chosen in h2_node.cpp:63.
    A child is (index, (key, value)): index as given by the parser (h2_syntax.cpp:91, 108), key_string, the rest. *)
From Coq Require Import List NArith ZArith Bool Arith.
From Verif Require Import Base FilterModel StrModel LineModel JsonModel.
Import ListNotations.
Local Open Scope N_scope.

(** ** h2_lines *)
(** h2_blank (source/utils/h2_misc.cpp:1-6) *)
Definition blank_word (w : bytes) : bool := forallb isspace w.
(** h2_lines::foldable with width 20 (h2_line.cpp:156-164, h2_line.hpp:45) *)
Definition foldable (ls : list line) : bool := (list_sum (map (@length N) (filter (fun w => negb (blank_word w) && negb (isctrl w)) (concat ls))) <? 20)%nat.
(** h2_lines::folds (h2_line.cpp:166-174) *)
Definition folds (ls : list line) : line := filter (fun w => negb (blank_word w)) (concat ls).
(** h2_lines::string (h2_line.cpp:176-184) *)
Definition lines_string (ls : list line) : bytes := concat (filter (fun w => negb (blank_word w) && negb (isctrl w)) (concat ls)).
(** h2_lines::samesizify (h2_line.cpp:194-199), its first argument *)
Definition samesize (a b : list line) : list line := a ++ repeat [] (length b - length a).

(** ** h2_node.cpp *)
(** type (h2_node.cpp:2-9) *)
Inductive kind := KAbsent | KNull | KBool | KNum | KStr | KPat | KArr | KObj.
(** the type of a node (h2_node.cpp:2-11) *)
Definition kind_of {num} (v : value num) : kind :=
  match v with Absent => KAbsent | Null => KNull | Bool _ => KBool | Num _ => KNum | Str _ => KStr | Pat _ => KPat | Arr _ => KArr | Obj _ => KObj end.
(** format_value (h2_node.cpp:58-70) *)
Definition format_value {num} (show : num -> bytes) (q : bytes) (v : value num) : bytes :=
  match v with
  | Null => str "null" | Bool b => if b then str "true" else str "false" | Num x => show x
  | Str s => q ++ s ++ q | Pat s => str "/" ++ s ++ str "/" | Absent | Arr _ | Obj _ => []
  end.
(** _key of format (h2_node.cpp:75) *)
Definition format_key (q k : bytes) : bytes := match k with [] => [] | _ => q ++ k ++ q end.
(** format (h2_node.cpp:79-107); [more] says that siblings follow (next) *)
Fixpoint format {num} (show : num -> bytes) (fold : bool) (q : bytes) (depth : nat) (more : bool) (k : bytes) (v : value num) {struct v} : list line :=
  let line := indent ([] : line) (depth * 2) ++ match k with [] => [] | _ => [q ++ k ++ q ++ str ": "] end in
  let close := fun b : bytes => [b] ++ if more then [str ", "] else [] in
  let body := fun (o c : bytes) (cs : list LineModel.line) =>
    if fold && foldable cs then [line ++ [o] ++ folds cs ++ close c] else [line ++ [o]] ++ cs ++ [indent ([] : LineModel.line) (depth * 2) ++ close c] in
  match v with
  | Arr l => body (str "[") (str "]") ((fix go (l : list (value num)) := match l with [] => [] | x :: r => format show fold q (S depth) (match r with [] => false | _ => true end) [] x ++ go r end) l)
  | Obj l => body (str "{") (str "}") ((fix go (l : list (bytes * value num)) := match l with [] => [] | (k', x) :: r => format show fold q (S depth) (match r with [] => false | _ => true end) k' x ++ go r end) l)
  | _ => [line ++ close (format_value show q v)]
  end.
(** h2_json::select on a node found (h2_json.cpp:20-28; the key is cleared, h2_tree.cpp:17) *)
Definition select_text {num} (show : num -> bytes) (fold : bool) (v : value num) : bytes := lines_string (format show fold [34] 0 false [] v).

(** ** h2_dual.cpp *)
(** index, key_string and the rest of a node (h2_node.cpp:11-17) *)
Notation node num := (nat * (bytes * value num))%type.
(** the children of a node (h2_node.cpp:17) *)
Definition nodes {num} (v : value num) : list (node num) := combine (seq 0 (length (children v))) (children v).
(** the members of a dual but children (h2_dual.cpp:2-8); index: None is 0x7fffffff *)
Record head := { depth_of : nat; apart : bool; index : option nat; key_equal : bool; value_match : bool; e_last : bool; a_last : bool;
                 e_type : kind; a_type : kind; e_key : bytes; a_key : bytes; e_value : bytes; a_value : bytes }.
(** a dual; Stuck: nested more deeply than the fuel allows (not in the code) (h2_dual.cpp:1-9) *)
Inductive dual := Stuck | Dual (h : head) (ch : list dual).
(** index of a dual (h2_dual.cpp:3) *)
Definition dual_index (d : dual) : option nat := match d with Stuck => None | Dual h _ => index h end.
(** whether 0 < index_cmp(q, p) (h2_dual.cpp:11-14) *)
Definition later (q p : option nat) : bool := match q, p with Some i, Some j => (j <? i)%nat | None, Some _ => true | _, None => false end.
(** one step of h2_list::sort (source/utils/h2_list.cpp:52-58): p before the first q that is later *)
Fixpoint insert_by {X} (ix : X -> option nat) (p : X) (l : list X) : list X :=
  match l with [] => [p] | q :: r => if later (ix q) (ix p) then p :: l else q :: insert_by ix p r end.
(** h2_list::sort (h2_list.cpp:48-60) *)
Definition sort_by {X} (ix : X -> option nat) (l : list X) : list X := fold_left (fun s p => insert_by ix p s) l [].
(** __mark_last (h2_dual.cpp:33-40), the children and whether e and a were seen, from the last one *)
Definition e_present (d : dual) : bool := match d with Stuck => false | Dual h _ => match e_type h with KAbsent => false | _ => true end end.
(** the same of a (h2_dual.cpp:38) *)
Definition a_present (d : dual) : bool := match d with Stuck => false | Dual h _ => match a_type h with KAbsent => false | _ => true end end.
(** one dual marked (h2_dual.cpp:37-38); [es], [az]: e_count, a_count are not 0 *)
Definition mark (es az : bool) (d : dual) : dual :=
  match d with
  | Stuck => Stuck
  | Dual h ch => Dual {| depth_of := depth_of h; apart := apart h; index := index h; key_equal := key_equal h; value_match := value_match h;
                         e_last := if e_present d then negb es else e_last h; a_last := if a_present d then negb az else a_last h;
                         e_type := e_type h; a_type := a_type h; e_key := e_key h; a_key := a_key h; e_value := e_value h; a_value := a_value h |} ch
  end.
(** __mark_last (h2_dual.cpp:33-40) *)
Definition mark_last (l : list dual) : list dual * bool * bool :=
  fold_right (fun d acc => let '(r, es, az) := acc in (mark es az d :: r, es || e_present d, az || a_present d)) ([], false, false) l.

Section Dual.
(** the type of numbers (value_double, h2_node.cpp:15; a parameter here) *)
Variable num : Type.
(** the text of a number (format_value, h2_node.cpp:58-70) *)
Variable show : num -> bytes.
(** comparison of numbers and patterns (h2_match.cpp) *)
Variable near : num -> num -> bool.
(** whether a pattern accepts a text (h2_pattern::match, h2_pattern.cpp:44-47, called from h2_match.cpp) *)
Variable pat : bool -> bytes -> bytes -> bool.
(** scores, the comparison score > max_score and 0.2 (h2_match.cpp:85-89), similarity (h2_match.cpp:65-82) *)
Variable score : Type.
(** score > max_score (h2_match.cpp:85-89) *)
Variable gt : score -> score -> bool.
(** the lowest score that counts (h2_match.cpp:85-89) *)
Variable floor : score.
(** how alike two nodes are (h2_match.cpp:65-82) *)
Variable similarity : bool -> node num -> node num -> score.

(** the first node with a property, taken out (h2_node.cpp:42-48 and h2_dual.cpp:27-30) *)
Fixpoint take (f : node num -> bool) (l : list (node num)) : option (node num * list (node num)) :=
  match l with [] => None | x :: r => if f x then Some (x, r) else match take f r with Some (y, r') => Some (y, x :: r') | None => None end end.
(** the partner by key (h2_dual.cpp:53-54) *)
Definition by_key (cl : bool) (e : node num) (al : list (node num)) : option (node num * list (node num)) :=
  match take (fun a => str_equals false (fst (snd a)) (fst (snd e))) al with
  | Some r => Some r
  | None => if cl then take (fun a => str_equals true (fst (snd a)) (fst (snd e))) al else None
  end.
(** h2_json_match::search (h2_match.cpp:83-95): position of the best *)
Fixpoint best (cl : bool) (e : node num) (m : score) (straw : option nat) (i : nat) (al : list (node num)) : option nat :=
  match al with [] => straw | a :: r => let s := similarity cl e a in if gt s m then best cl e s (Some i) (S i) r else best cl e m straw (S i) r end.
(** the node at a position, taken out (h2_dual.cpp:27-30) *)
Fixpoint take_at (i : nat) (l : list (node num)) : option (node num * list (node num)) :=
  match l with [] => None | x :: r => match i with O => Some (x, r) | S j => match take_at j r with Some (y, r') => Some (y, x :: r') | None => None end end end.
(** the partner by similarity (h2_dual.cpp:58) *)
Definition by_search (cl : bool) (e : node num) (al : list (node num)) : option (node num * list (node num)) :=
  match best cl e floor None 0 al with Some i => take_at i al | None => None end.
(** a pass (h2_dual.cpp:52-56, 57-60): pairs, what remains of e and of a *)
Fixpoint pass (find : node num -> list (node num) -> option (node num * list (node num))) (es al : list (node num)) : list (node num * node num) * list (node num) * list (node num) :=
  match es with
  | [] => ([], [], al)
  | e :: r =>
      match find e al with
      | Some (a, al') => let '(ps, es', al'') := pass find r al' in ((e, a) :: ps, es', al'')
      | None => let '(ps, es', al') := pass find r al in (ps, e :: es', al')
      end
  end.
(** position by position (h2_dual.cpp:62-64, 67-68) *)
Fixpoint zip (es al : list (node num)) : list (option (node num) * option (node num)) :=
  match es, al with
  | [], [] => []
  | e :: es', [] => (Some e, None) :: zip es' []
  | [], a :: al' => (None, Some a) :: (fix rest al := match al with [] => [] | a :: r => (None, Some a) :: rest r end) al'
  | e :: es', a :: al' => (Some e, Some a) :: zip es' al'
  end.
(** which nodes are combined, with relationship < 0, in the order of construction (h2_dual.cpp:50-64) *)
Definition object_plan (cl both : bool) (es al : list (node num)) : list (option (node num) * option (node num) * bool) :=
  let '(p1, es1, al1) := if both then pass (by_key cl) es al else ([], es, al) in
  let '(p2, es2, al2) := if both then pass (by_search cl) es1 al1 else ([], es1, al1) in
  map (fun p => (Some (fst p), Some (snd p), false)) (p1 ++ p2) ++ map (fun p => (p, true)) (zip es2 al2).
(** children of a node that may be missing (h2_dual.cpp:51, 61-75) *)
Definition onodes (n : option (node num)) : list (node num) := match n with Some x => nodes (snd (snd x)) | None => [] end.
(** type of a node that may be missing (h2_dual.cpp:6, 45-46) *)
Definition okind (n : option (node num)) : kind := match n with Some x => kind_of (snd (snd x)) | None => KAbsent end.
(** key as formatted (h2_dual.cpp:45-46) *)
Definition okey (n : option (node num)) : bytes := match n with Some x => format_key [34] (fst (snd x)) | None => [] end.
(** value as formatted (h2_dual.cpp:45-46) *)
Definition ovalue (n : option (node num)) : bytes := match n with Some x => format_value show [34] (snd (snd x)) | None => [] end.
(** the constructor (h2_dual.cpp:42-71) *)
Fixpoint mk_dual (fuel : nat) (cl : bool) (depth : nat) (rel : bool) (e a : option (node num)) : dual :=
  match fuel with
  | O => Stuck
  | S f =>
      let build := fun p : option (node num) * option (node num) * bool => mk_dual f cl (S depth) (snd p) (fst (fst p)) (snd (fst p)) in
      let both := match e, a with Some _, Some _ => true | _, _ => false end in
      let ch := match okind e, okind a with
                | KObj, _ | _, KObj => sort_by dual_index (map build (object_plan cl both (onodes e) (onodes a)))
                | KArr, _ | _, KArr => map build (map (fun p => (p, false)) (zip (onodes e) (onodes a)))
                | _, _ => []
                end in
      Dual {| depth_of := depth; apart := rel; index := option_map fst e; key_equal := str_equals cl (okey e) (okey a);
              value_match := match e, a with Some x, Some y => jmatch near pat cl (snd (snd x)) (snd (snd y)) | _, _ => false end;
              e_last := true; a_last := true; e_type := okind e; a_type := okind a; e_key := okey e; a_key := okey a; e_value := ovalue e; a_value := ovalue a |}
           (fst (fst (mark_last ch)))
  end.
End Dual.

(** color (source/utils/h2_line.hpp:33) *)
Definition color (w style : bytes) : line := [[27; 123] ++ style ++ [125]; w; [27; 123] ++ str "reset" ++ [125]].
(** __e_style (h2_dual.cpp:73) *)
Definition e_style (h : head) : bytes := match a_type h with KAbsent => str "light blue" | _ => if apart h then str "light blue" else str "green" end.
(** __a_style (h2_dual.cpp:74) *)
Definition a_style (h : head) : bytes := match e_type h with KAbsent => str "light purple" | _ => if apart h then str "light purple" else str "red,bold" end.
(** object or array (h2_dual.cpp:50, 79-93) *)
Definition container (k : kind) : bool := match k with KArr | KObj => true | _ => false end.
(** key, value and opening bracket of a side (h2_dual.cpp:79-93) *)
Definition front (depth : nat) (k : kind) (key val style : bytes) (keq vm : bool) : line :=
  indent ([] : line) (depth * 2)
  ++ match k, key with KAbsent, _ | _, [] => [] | _, _ => color key (if keq then [] else style) ++ [str ": "] end
  ++ match k, val with KAbsent, _ | _, [] => [] | _, _ => color val (if vm then [] else style) end
  ++ match k with KObj => [str "{"] | KArr => [str "["] | _ => [] end.
(** closing bracket and comma of a side (h2_dual.cpp:118-122) *)
Definition back (k : kind) (lst : bool) : line :=
  match k with KObj => [str "}"] | KArr => [str "]"] | _ => [] end ++ match k with KAbsent => [] | _ => if lst then [] else [str ", "] end.
(** gray (" ... ") (h2_line.hpp:35, h2_dual.cpp:101-102) *)
Definition elided : line := delta (str " ... ") dark_gray.
(** the lines of a side before samesizify (h2_dual.cpp:100-124) *)
Definition side (mode : nat) (depth : nat) (k : kind) (fr bk : line) (cs : list line) : list line :=
  match mode with
  | O => [fr ++ (if foldable cs then folds cs else elided) ++ bk]
  | S O => [fr ++ folds cs ++ bk]
  | _ => if container k then [fr] ++ cs ++ [indent ([] : line) (depth * 2) ++ bk] else [fr ++ bk]
  end.
(** align (h2_dual.cpp:76-128); [fold] = O.fold_json, FoldSame = 2, FoldSingle = 3 (source/option/h2_option.hpp:5) *)
Fixpoint align (fold : nat) (d : dual) : list line * list line :=
  match d with
  | Stuck => ([], [])
  | Dual h ch =>
      let cs := map (align fold) ch in
      let ecs := concat (map fst cs) in let acs := concat (map snd cs) in
      let mode := if ((2 <=? fold) && key_equal h && value_match h)%nat || ((3 <=? fold)%nat && apart h) then O
                  else if negb (fold =? 0)%nat && foldable ecs && foldable acs then 1%nat else 2%nat in
      let e := side mode (depth_of h) (e_type h) (front (depth_of h) (e_type h) (e_key h) (e_value h) (e_style h) (key_equal h) (value_match h)) (back (e_type h) (e_last h)) ecs in
      let a := side mode (depth_of h) (a_type h) (front (depth_of h) (a_type h) (a_key h) (a_value h) (a_style h) (key_equal h) (value_match h)) (back (a_type h) (a_last h)) acs in
      (samesize e a, samesize a e)
  end.
(** h2_json::diff (h2_json.cpp:37-44); the roots have index 0 and no key *)
Definition diff {num} show near pat {score} gt floor similarity (fuel : nat) (cl : bool) (fold : nat) (e a : value num) : list line * list line :=
  align fold (mk_dual num show near pat score gt floor similarity fuel cl 0 false (Some (O, ([], e))) (Some (O, ([], a)))).
