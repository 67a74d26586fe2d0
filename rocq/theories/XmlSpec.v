(** A reader of XML documents without text and references, as other programs read a report: elements with attributes. *)
From Coq Require Import List NArith Bool Arith.
From Verif Require Import Base.
Import ListNotations.
Local Open Scope N_scope.

(** an element: its name, attributes in order, elements within it *)
Inductive element := Element (name : bytes) (attributes : list (bytes * bytes)) (within : list element).
Definition tag (e : element) : bytes := match e with Element n _ _ => n end.
Definition attributes (e : element) : list (bytes * bytes) := match e with Element _ a _ => a end.
Definition within (e : element) : list element := match e with Element _ _ w => w end.
(** value of an attribute *)
Definition attribute (n : bytes) (e : element) : option bytes := option_map snd (find (fun p => bytes_eqb (fst p) n) (attributes e)).

(** characters of names; blanks *)
Definition name_char (c : byte) : bool := ((97 <=? c) && (c <=? 122)) || ((65 <=? c) && (c <=? 90)) || ((48 <=? c) && (c <=? 57)) || (c =? 45) || (c =? 95) || (c =? 46) || (c =? 58).
Definition blank (c : byte) : bool := (c =? 32) || (c =? 9) || (c =? 10) || (c =? 13).
(** where the reader is *)
Inductive place :=
| Between | Open | Name (n : bytes) | Attrs (n : bytes) (a : list (bytes * bytes)) | Key (n : bytes) (a : list (bytes * bytes)) (k : bytes)
| Equals (n : bytes) (a : list (bytes * bytes)) (k : bytes) | Value (n : bytes) (a : list (bytes * bytes)) (k v : bytes) | After (n : bytes) (a : list (bytes * bytes))
| Empty (n : bytes) (a : list (bytes * bytes)) | Close (n : bytes).
(** elements not yet closed, innermost first, each with what it holds so far; below them the elements outside of all *)
Definition open_ := (bytes * list (bytes * bytes) * list element)%type.
Record reader := mkreader { at_ : place; opened : list open_; roots : list element }.
(** an element is complete *)
Definition put (e : element) (o : list open_) (r : list element) : list open_ * list element :=
  match o with [] => ([], r ++ [e]) | (n, a, w) :: o' => ((n, a, w ++ [e]) :: o', r) end.
Definition start_ (n : bytes) (a : list (bytes * bytes)) (x : reader) : reader := mkreader Between ((n, a, []) :: opened x) (roots x).
Definition end_ (n : bytes) (x : reader) : option reader :=
  match opened x with
  | (m, a, w) :: o => if bytes_eqb m n then let (o', r') := put (Element m a w) o (roots x) in Some (mkreader Between o' r') else None
  | [] => None
  end.
Definition go (p : place) (x : reader) : option reader := Some (mkreader p (opened x) (roots x)).
(** one character *)
Definition read1 (x : reader) (c : byte) : option reader :=
  match at_ x with
  | Between => if blank c then Some x else if c =? 60 then go Open x else None
  | Open => if c =? 47 then go (Close []) x else if name_char c then go (Name [c]) x else None
  | Name n => if name_char c then go (Name (n ++ [c])) x else if blank c then go (Attrs n []) x else if c =? 62 then Some (start_ n [] x) else if c =? 47 then go (Empty n []) x else None
  | Attrs n a => if blank c then Some x else if c =? 62 then Some (start_ n a x) else if c =? 47 then go (Empty n a) x else if name_char c then go (Key n a [c]) x else None
  | Key n a k => if name_char c then go (Key n a (k ++ [c])) x else if c =? 61 then (if existsb (fun p => bytes_eqb (fst p) k) a then None else go (Equals n a k) x) else None
  | Equals n a k => if c =? 34 then go (Value n a k []) x else None
  | Value n a k v => if c =? 34 then go (After n (a ++ [(k, v)])) x else if (c =? 60) || (c =? 38) || (c <? 32) then None else go (Value n a k (v ++ [c])) x
  | After n a => if blank c then go (Attrs n a) x else if c =? 62 then Some (start_ n a x) else if c =? 47 then go (Empty n a) x else None
  | Empty n a => if c =? 62 then end_ n (start_ n a x) else None
  | Close n => if name_char c then go (Close (n ++ [c])) x else if c =? 62 then end_ n x else None
  end.
Fixpoint read_all (x : reader) (s : bytes) : option reader := match s with [] => Some x | c :: r => match read1 x c with Some y => read_all y r | None => None end end.
(** a single element *)
Definition single (s : bytes) : option element :=
  match read_all (mkreader Between [] []) s with Some (mkreader Between [] [e]) => Some e | _ => None end.
(** what stands before the first ?> and behind it *)
Fixpoint question_end (s : bytes) : option (bytes * bytes) :=
  match s with
  | c :: r => if c =? 63 then match r with d :: r' => if d =? 62 then Some ([], r') else option_map (fun p => (c :: fst p, snd p)) (question_end r) | [] => None end
              else option_map (fun p => (c :: fst p, snd p)) (question_end r)
  | [] => None
  end.
(** a declaration is written like the attributes of an element xml: the version first, then the encoding *)
Definition declares (t : bytes) : bool :=
  match single ([60] ++ t ++ [47; 62]) with
  | Some (Element n [(v, x); (e, y)] []) => bytes_eqb n (str "xml") && bytes_eqb v (str "version") && bytes_eqb x (str "1.0") && bytes_eqb e (str "encoding") && bytes_eqb y (str "UTF-8")
  | _ => false
  end.
(** a document: a declaration, one element *)
Definition read_xml (s : bytes) : option element :=
  match s with
  | a :: b :: r => if (a =? 60) && (b =? 63) then match question_end r with Some (t, r') => if declares t then single r' else None | None => None end else None
  | _ => None
  end.
