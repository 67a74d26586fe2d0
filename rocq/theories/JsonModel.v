(** Model of the JSON lexer, parser, node access, comparison and selector
    (source/json/h2_lexical.cpp, h2_syntax.cpp, h2_node.cpp, h2_tree.cpp, h2_match.cpp:2-46, h2_select.cpp, h2_json.cpp:30-34).

    A document is a value; the children of an object carry their keys, those of an array the empty key (h2_node.cpp:13).  Numbers
    are of an abstract type; [ev] is tinyexpr::evaluate (ExprModel).  A std::string constructed with a length of size_t(-1) throws:
    outcome Throws.  Recursion takes fuel; running out is its own outcome.  Call depth and allocation failures are not modelled. *)
From Coq Require Import List NArith ZArith Bool Arith.
From Verif Require Import Base FilterModel StrModel.
Import ListNotations.
Local Open Scope N_scope.

(** ** h2_lexical.cpp *)
(** strip_right (source/utils/h2_misc.cpp:45-50) of a text without NUL *)
Definition strip_right (s : bytes) : bytes := rev (strip_left (rev s)).
(** new_lexis (h2_lexical.cpp:2-7) *)
Definition new_lexis (s : bytes) : bytes := strip_right (strip_left s).
(** the characters of strchr (h2_lexical.cpp:27, 67) *)
Definition punct (c : byte) : bool := existsb (N.eqb c) (str "{:}[,]").
(** states (h2_lexical.cpp:11-18); Escape with stash_state *)
Inductive lstate := Idle | Escape (back : lstate) | Single | Double | Pattern | Normal.
(** the state behind the first character of a token (h2_lexical.cpp:30-34) *)
Definition start (c : byte) : lstate :=
  if c =? 34 then Double else if c =? 39 then Single else if c =? 47 then Pattern else if c =? 92 then Escape Normal else Normal.
(** h2_json_lexical::parse (h2_lexical.cpp:9-81); [pend] = the characters from pending on *)
Fixpoint lexer (st : lstate) (pend : bytes) (s : bytes) : list bytes :=
  match s with
  | [] => match st with Idle => [] | _ => [new_lexis pend] end
  | c :: r =>
      match st with
      | Idle => if isspace c then lexer Idle [] r else if punct c then new_lexis [c] :: lexer Idle [] r else lexer (start c) [c] r
      | Escape back => lexer back (pend ++ [c]) r
      | Single => if c =? 39 then new_lexis (pend ++ [c]) :: lexer Idle [] r else if c =? 92 then lexer (Escape Single) (pend ++ [c]) r else lexer Single (pend ++ [c]) r
      | Double => if c =? 34 then new_lexis (pend ++ [c]) :: lexer Idle [] r else if c =? 92 then lexer (Escape Double) (pend ++ [c]) r else lexer Double (pend ++ [c]) r
      | Pattern => if c =? 47 then new_lexis (pend ++ [c]) :: lexer Idle [] r else lexer Pattern (pend ++ [c]) r
      | Normal => if punct c then new_lexis pend :: new_lexis [c] :: lexer Idle [] r else if c =? 92 then lexer (Escape Normal) (pend ++ [c]) r else lexer Normal (pend ++ [c]) r
      end
  end.
(** the tokens of a C string (h2_lexical.cpp:9-80) *)
Definition lexical (s : bytes) : list bytes := lexer Idle [] (c_str s).

(** ** h2_node.cpp *)
(** h2_json_node (h2_node.cpp:1-19): type and value; children of an object with key_string *)
Inductive value (num : Type) := Absent | Null | Bool (b : bool) | Num (x : num) | Str (s : bytes) | Pat (s : bytes) | Arr (l : list (value num)) | Obj (l : list (bytes * value num)).
Arguments Absent {num}. Arguments Null {num}. Arguments Bool {num}. Arguments Num {num}. Arguments Str {num}. Arguments Pat {num}. Arguments Arr {num}. Arguments Obj {num}.
(** children (h2_node.cpp:17) with their keys *)
Definition children {num} (v : value num) : list (bytes * value num) :=
  match v with Arr l => map (fun x => ([], x)) l | Obj l => l | _ => [] end.
(** get (h2_node.cpp:33-40): by index, negative ones from the end *)
Definition get_index {num} (i : Z) (l : list (bytes * value num)) : option (value num) :=
  let i := if (i <? 0)%Z then (Z.of_nat (length l) + i)%Z else i in
  if (i <? 0)%Z then None else option_map snd (nth_error l (Z.to_nat i)).
(** get (h2_node.cpp:42-48): the first child of that key *)
Fixpoint get_key {num} (cl : bool) (k : bytes) (l : list (bytes * value num)) : option (value num) :=
  match l with [] => None | (k', v) :: r => if str_equals cl k' k then Some v else get_key cl k r end.

(** ** h2_syntax.cpp *)
(** enclosed (source/utils/h2_string.cpp:63-67); an empty string has the NUL in front *)
Definition enclosed (c : byte) (s : bytes) : bool := match s with [] => false | a :: _ => (a =? c) && (last s 0 =? c) end.
(** unenclose (h2_string.cpp:69-73) of an enclosed string; None: size() - 2 underflows, the constructor throws *)
Definition middle (s : bytes) : option bytes := match s with [] => None | [_] => None | _ :: r => Some (removelast r) end.
(** filter_string (h2_syntax.cpp:12-18) *)
Definition filter_string (s : bytes) : option bytes :=
  option_map unescape (if enclosed 34 s then middle s else if enclosed 39 s then middle s else Some s).
(** what a parse function leaves: a value and the tokens from i on; false; an exception; out of calls (h2_syntax.cpp:27-121) *)
Inductive pres (num : Type) := Done (v : value num) (ts : list bytes) | Fails | Throws | Calls.
Arguments Done {num}. Arguments Fails {num}. Arguments Throws {num}. Arguments Calls {num}.
(** the parse functions (h2_syntax.cpp:27-56, 87-121): a value; the loop of an array; the loop of an object *)
Inductive task (num : Type) := Value | Items (l : list (value num)) | Members (l : list (bytes * value num)).
Arguments Value {num}. Arguments Items {num}. Arguments Members {num}.
(** parse_value, parse_key, parse_pattern, parse_string_or_number, parse_array, parse_object (h2_syntax.cpp:27-121) *)
Fixpoint syntax {num} (ev : bytes -> option num) (fuel : nat) (k : task num) (ts : list bytes) : pres num :=
  match fuel with
  | O => Calls
  | S f =>
      match k with
      | Value =>
          match ts with
          | [] => Done Absent []
          | t :: r =>
              if bytes_eqb t (str "null") then Done Null r
              else if bytes_eqb t (str "false") then Done (Bool false) r
              else if bytes_eqb t (str "true") then Done (Bool true) r
              else if bytes_eqb t (str "[") then syntax ev f (Items []) r
              else if bytes_eqb t (str "{") then syntax ev f (Members []) r
              else if prefixb (str "/") t then (if enclosed 47 t then match middle t with Some s => Done (Pat s) r | None => Throws end else Done (Pat t) r)
              else if bytes_eqb t (str ":") then Fails
              else if bytes_eqb t (str ",") then Fails
              else match ev t with
                   | Some x => Done (Num x) r
                   | None => match filter_string t with Some s => Done (Str s) r | None => Throws end
                   end
          end
      | Items l =>
          match ts with
          | [] => Fails
          | t :: r =>
              if bytes_eqb t (str "]") then Done (Arr l) r
              else match syntax ev f Value ts with
                   | Done v q =>
                       match q with
                       | [] => Fails
                       | t' :: q' => if bytes_eqb t' (str ",") then syntax ev f (Items (l ++ [v])) q' else if bytes_eqb t' (str "]") then Done (Arr (l ++ [v])) q' else Fails
                       end
                   | e => e
                   end
          end
      | Members l =>
          match ts with
          | [] => Fails
          | t :: r =>
              if bytes_eqb t (str "}") then Done (Obj l) r
              else match filter_string t with
                   | None => Throws
                   | Some key =>
                       match r with
                       | [] => Fails
                       | t1 :: r1 =>
                           if bytes_eqb t1 (str ":")
                           then match syntax ev f Value r1 with
                                | Done v q =>
                                    match q with
                                    | [] => Fails
                                    | t' :: q' => if bytes_eqb t' (str ",") then syntax ev f (Members (l ++ [(key, v)])) q' else if bytes_eqb t' (str "}") then Done (Obj (l ++ [(key, v)])) q' else Fails
                                    end
                                | e => e
                                end
                           else Fails
                       end
                   end
          end
      end
  end.
(** nested calls that suffice (not in the code; C37_ends) (bounds the recursion of h2_syntax.cpp:27-121) *)
Definition depth (ts : list bytes) : nat := S (S (2 * length ts)).
(** the tree of a text (h2_syntax.cpp:6-10, h2_tree.cpp:6-10): illformed texts Fail *)
Definition tree_of {num} (ev : bytes -> option num) (s : bytes) : pres num :=
  match syntax ev (depth (lexical s)) Value (lexical s) with Done v [] => Done v [] | Done _ _ => Fails | e => e end.

(** ** h2_match.cpp *)
(** match, match_array, match_object (h2_match.cpp:2-45); [near] compares numbers (h2_match.cpp:32-34), [pat] is h2_pattern::match *)
Fixpoint jmatch {num} (near : num -> num -> bool) (pat : bool -> bytes -> bytes -> bool) (cl : bool) (e a : value num) {struct e} : bool :=
  match e with
  | Absent => false
  | Null => match a with Null => true | _ => false end
  | Bool b => match a with Bool b' => Bool.eqb b b' | _ => false end
  | Num x => match a with Num y => near x y | _ => false end
  | Str s => match a with Str s' => str_equals cl s s' | _ => false end
  | Pat p => match a with Str s => pat cl p s | _ => false end
  | Arr le =>
      match a with
      | Arr la => (length le =? length la)%nat &&
                  (fix go (i : nat) (l : list (value num)) : bool :=
                     match l with [] => true | p :: l' => match nth_error la i with Some q => jmatch near pat cl p q && go (S i) l' | None => false end end) O le
      | _ => false
      end
  | Obj le =>
      match a with
      | Obj la => (length le <=? length la)%nat &&
                  (fix go (l : list (bytes * value num)) : bool :=
                     match l with [] => true | (k, p) :: l' => match get_key cl k la with Some q => jmatch near pat cl p q && go l' | None => false end end) le
      | _ => false
      end
  end.
(** h2_json::match (h2_json.cpp:30-35): -1 illformed, 0 matched, 1 unmatched; None an exception *)
Definition json_match {num} (ev : bytes -> option num) (near : num -> num -> bool) (pat : bool -> bytes -> bytes -> bool) (cl : bool) (expect actual : bytes) : option Z :=
  match tree_of ev expect with
  | Throws | Calls => None
  | e => match tree_of ev actual with
         | Throws | Calls => None
         | a => match e, a with Done ve _, Done va _ => Some (if jmatch near pat cl ve va then 0 else 1)%Z | _, _ => Some (-1)%Z end
         end
  end.

(** ** h2_select.cpp *)
(** value (h2_select.cpp:2-5): a key, or an index *)
Inductive step := Key (k : bytes) | Index (i : Z).
(** the digits of atoi (h2_select.cpp:62); results outside int are undefined in C: not cut here *)
Fixpoint digits (acc : Z) (s : bytes) : Z := match s with c :: r => if (48 <=? c) && (c <=? 57) then digits (10 * acc + (Z.of_N c - 48))%Z r else acc | [] => acc end.
(** atoi of a text of minus signs and digits (h2_select.cpp:62) *)
Definition atoi (s : bytes) : Z := match s with 45 :: r => (- digits 0 r)%Z | _ => digits 0 s end.
(** strspn (h2_select.cpp:61) covers the whole part *)
Definition numeric (s : bytes) : bool := forallb (fun c => (c =? 45) || ((48 <=? c) && (c <=? 57))) s.
(** add (h2_select.cpp:55-70) *)
Definition add_part (only_key : bool) (part : bytes) : list step :=
  match new_lexis part with
  | [] => []
  | (c :: r) as s =>
      if negb only_key && numeric s then [Index (atoi s)]
      else let s' := if negb only_key && (((c =? 34) && (last s 0 =? 34)) || ((c =? 39) && (last s 0 =? 39))) then removelast r else s in
           match s' with [] => [] | _ => [Key s'] end
  end.
(** states (h2_select.cpp:11-15) *)
Inductive sstate := SIdle | InDot | InBracket.
(** the constructor (h2_select.cpp:9-53); [part] = the characters from s on *)
Fixpoint selector (st : sstate) (part : bytes) (s : bytes) : list step :=
  match s with
  | [] => match st with InDot => add_part true part | _ => [] end
  | c :: r =>
      match st with
      | SIdle => if c =? 46 then selector InDot [] r else if c =? 91 then selector InBracket [] r else selector SIdle [] r
      | InDot => if c =? 46 then add_part true part ++ selector InDot [] r else if c =? 91 then add_part true part ++ selector InBracket [] r else selector InDot (part ++ [c]) r
      | InBracket => if c =? 93 then add_part false part ++ selector SIdle [] r else selector InBracket (part ++ [c]) r
      end
  end.
(** the steps of a selector text (h2_select.cpp:9-53) *)
Definition steps_of (s : bytes) : list step := selector SIdle [] (c_str s).
(** what select finds: a node, none, or a null node is dereferenced (h2_tree.cpp:12-19) *)
Inductive sel (num : Type) := Found (v : value num) | Missing | NullDeref.
Arguments Found {num}. Arguments Missing {num}. Arguments NullDeref {num}.
(** one step (h2_tree.cpp:16) *)
Definition sel_step {num} (cl : bool) (v : value num) (s : step) : option (value num) :=
  match s with Key k => get_key cl k (children v) | Index i => get_index i (children v) end.
(** h2_json_tree::select (h2_tree.cpp:12-19) *)
Fixpoint follow {num} (cl : bool) (node : option (value num)) (steps : list step) : sel num :=
  match steps with
  | [] => match node with Some v => Found v | None => Missing end
  | s :: r => match node with Some v => follow cl (sel_step cl v s) r | None => NullDeref end
  end.
