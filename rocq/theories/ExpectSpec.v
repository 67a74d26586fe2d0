(** How the text of an expectation is to be read, and what it has to say (C80). *)
From Coq Require Import List NArith ZArith Bool Arith.
From Verif Require Import Base StrModel LineSpec MessageSpec FailModel MatcherModel ValueModel ValueSpec ExpectModel.
Import ListNotations.
Local Open Scope N_scope.

(** simple tests: anything, nothing there, true, a number, a comparison with a number, a text, a text in a named way *)
Inductive leaf := LAny | LNull | LTrue | LNumber (z : Z) | LCompare (o : comparison) (z : Z) | LSame (s : bytes) | LNamed (name s : bytes).
(** sayings: a simple test, whether letter case or blanks are ignored; and what is made of sayings *)
Inductive saying :=
| Leaf (ci sq : bool) (l : leaf)
| No (s : saying) | Both (s t : saying) | Either (s t : saying)
| All (l : list saying) | Some_ (l : list saying) | None_ (l : list saying).
(** is it so of a value, given when simple tests are true of it *)
Fixpoint holds (I : leaf -> bool -> bool -> val -> bool) (s : saying) (v : val) : bool :=
  match s with
  | Leaf ci sq l => I l ci sq v
  | No s => negb (holds I s v)
  | Both s t => holds I s v && holds I t v
  | Either s t => holds I s v || holds I t v
  | All l => forallb (fun s => holds I s v) l
  | Some_ l => existsb (fun s => holds I s v) l
  | None_ l => negb (existsb (fun s => holds I s v) l)
  end.
Definition negated (neg : bool) (s : saying) : saying := if neg then No s else s.
(** a mark, or none *)
Definition mark (b : bool) (w : bytes) : bytes := if b then w else [].
Definition not_mark : bytes := str "!".
Definition unequal_mark : bytes := str "≠".
Definition compare_mark (o : comparison) : bytes := match o with GreaterEqual => str "≥" | Greater => str ">" | LessEqual => str "≤" | Less => str "<" end.
Definition ways : list bytes := [str "Re"; str "We"; str "Substr"; str "StartsWith"; str "EndsWith"].

(** the texts of simple tests.  A star before a number says nothing *)
Inductive simple (st : styles) : list (styles * byte) -> saying -> Prop :=
| s_any neg : simple st (letters st (mark neg not_mark ++ str "Any")) (negated neg (Leaf false false LAny))
| s_null neg : simple st (letters st (mark neg not_mark ++ str "NULL")) (negated neg (Leaf false false LNull))
| s_true : simple st (letters st (str "true")) (Leaf false false LTrue)
| s_false : simple st (letters st (str "false")) (No (Leaf false false LTrue))
| s_number neg star z d : whole z d -> simple st (letters st (mark neg unequal_mark ++ mark star (str "*") ++ d)) (negated neg (Leaf false false (LNumber z)))
| s_compare neg star o z d : whole z d -> simple st (letters st (mark neg not_mark ++ mark star (str "*") ++ compare_mark o ++ d)) (negated neg (Leaf false false (LCompare o z)))
| s_same neg ci sq s : simple st (letters st (mark neg unequal_mark ++ mark ci (str "~") ++ mark sq (str "*")) ++ grayed st [34] ++ letters st s ++ grayed st [34]) (negated neg (Leaf ci sq (LSame s)))
| s_named neg ci sq name s : In name ways ->
    simple st (letters st (mark neg not_mark ++ mark ci (str "~") ++ mark sq (str "*") ++ name) ++ grayed st (str "(") ++ (grayed st [34] ++ letters st s ++ grayed st [34]) ++ grayed st (str ")"))
      (negated neg (Leaf ci sq (LNamed name s))).

(** and binds closer than or; brackets, commas and quotation marks that belong to the expectation are gray *)
Inductive level := Alone | Conjunction | Disjunction.
Definition several (w : bytes) (l : list saying) : option saying :=
  if bytes_eqb w (str "AllOf") then Some (All l) else if bytes_eqb w (str "AnyOf") then Some (Some_ l) else if bytes_eqb w (str "NoneOf") then Some (None_ l) else None.
Inductive reads (st : styles) : level -> list (styles * byte) -> saying -> Prop :=
| r_simple o s : simple st o s -> reads st Alone o s
| r_paren o s : reads st Disjunction o s -> reads st Alone (grayed st (str "(") ++ o ++ grayed st (str ")")) s
| r_not o s : reads st Disjunction o s -> reads st Alone (letters st not_mark ++ grayed st (str "(") ++ o ++ grayed st (str ")")) (No s)
| r_several neg w o l s : several w l = Some s -> reads_list st o l -> reads st Alone (letters st (mark neg not_mark ++ w) ++ grayed st (str "(") ++ o ++ grayed st (str ")")) (negated neg s)
| r_alone o s : reads st Alone o s -> reads st Conjunction o s
| r_and o s p t : reads st Conjunction o s -> reads st Alone p t -> reads st Conjunction (o ++ letters st (str " and ") ++ p) (Both s t)
| r_conj o s : reads st Conjunction o s -> reads st Disjunction o s
| r_or o s p t : reads st Disjunction o s -> reads st Conjunction p t -> reads st Disjunction (o ++ letters st (str " or ") ++ p) (Either s t)
with reads_list (st : styles) : list (styles * byte) -> list saying -> Prop :=
| rl_none : reads_list st [] []
| rl_one o s : reads st Disjunction o s -> reads_list st o [s]
| rl_more o s p l : reads st Disjunction o s -> reads_list st p l -> l <> [] -> reads_list st (o ++ grayed st (str ", ") ++ p) (s :: l).

(** matchers whose texts are to be read so, by whether they are negated, ignore case, ignore blanks: made of simple tests and not, and,
    or, AllOf, AnyOf, NoneOf, options; blanks ignored by simple tests only; plain values not negated, plain texts without options *)
Inductive readable : bool -> bool -> bool -> expected -> Prop :=
| rd_number (ci : bool) (sq : bool) z : readable false ci sq (XPlain (VInt z))
| rd_plain s : sane s -> readable false false false (XPlain (VText s))
| rd_poly (neg : bool) (ci : bool) (sq : bool) f m : readable (xorb (f_neg f) neg) (f_ci f || ci) (f_sq f || sq) m -> readable neg ci sq (XPoly f m)
| rd_any (neg : bool) (ci : bool) (sq : bool) : readable neg ci sq XAny
| rd_null (neg : bool) (ci : bool) (sq : bool) : readable neg ci sq XNull
| rd_bool (neg : bool) (ci : bool) (sq : bool) (b : bool) : readable neg ci sq (XBool b)
| rd_eq (neg : bool) (ci : bool) (sq : bool) z : readable neg ci sq (XEq (VInt z))
| rd_order (neg : bool) (ci : bool) (sq : bool) o z : readable neg ci sq (XOrder o (VInt z))
| rd_text (neg : bool) (ci : bool) (sq : bool) s : sane (if sq then squash false s else s) -> readable neg ci sq (XText s)
| rd_named (neg : bool) (ci : bool) (sq : bool) name s : In name ways -> sane s -> readable neg ci sq (XNamed name s)
| rd_not (neg : bool) (ci : bool) (sq : bool) m : readable (negb neg) ci sq m -> readable neg ci sq (XNot m)
| rd_cond (neg : bool) (ci : bool) (sq : bool) (b : bool) mt mf : readable neg ci sq mt -> readable neg ci sq mf -> readable neg ci sq (XCond b mt mf)
| rd_and (neg : bool) (ci : bool) ml mr : readable false ci false ml -> readable false ci false mr -> readable neg ci false (XAnd ml mr)
| rd_or (neg : bool) (ci : bool) ml mr : readable false ci false ml -> readable false ci false mr -> readable neg ci false (XOr ml mr)
| rd_allof (neg : bool) (ci : bool) l : Forall (readable false ci false) l -> readable neg ci false (XAllOf l)
| rd_anyof (neg : bool) (ci : bool) l : Forall (readable false ci false) l -> readable neg ci false (XAnyOf l)
| rd_noneof (neg : bool) (ci : bool) l : Forall (readable false ci false) l -> readable neg ci false (XNoneOf l)
| rd_caseless (neg : bool) (ci : bool) (sq : bool) m : readable neg true sq m -> readable neg ci sq (XCaseLess m)
| rd_spaceless (neg : bool) (ci : bool) (sq : bool) m : readable neg ci true m -> readable neg ci sq (XSpaceLess m).

(** what these matchers test (MatcherModel), given when simple tests are true.  A plain value is tested like Eq of it (h2_matcher.hpp:84),
    a text without blanks by its text without blanks (h2_matches_strcmp.cpp:4) *)
Fixpoint tested (I : leaf -> bool -> bool -> val -> bool) (m : expected) : matcher :=
  match m with
  | XPlain (VInt z) => MPoly flags0 (MBase (fun _ _ v => I (LNumber z) false false v))
  | XPlain (VText s) => MPoly flags0 (MBase (fun ci sq v => I (LSame (if sq then squash false s else s)) ci sq v))
  | XPoly f m => MPoly f (tested I m)
  | XAny => MBase (fun _ _ v => I LAny false false v)
  | XNull => MBase (fun _ _ v => I LNull false false v)
  | XBool b => MBase (fun _ _ v => if b then I LTrue false false v else negb (I LTrue false false v))
  | XEq (VInt z) => MBase (fun _ _ v => I (LNumber z) false false v)
  | XOrder o (VInt z) => MBase (fun _ _ v => I (LCompare o z) false false v)
  | XText s => MBase (fun ci sq v => I (LSame (if sq then squash false s else s)) ci sq v)
  | XNamed name s => MBase (fun ci sq v => I (LNamed name s) ci sq v)
  | XNot m => MNot (tested I m)
  | XCond b mt mf => MCond b (tested I mt) (tested I mf)
  | XAnd ml mr => MAnd (tested I ml) (tested I mr)
  | XOr ml mr => MOr (tested I ml) (tested I mr)
  | XAllOf l => MAllOf (map (tested I) l)
  | XAnyOf l => MAnyOf (map (tested I) l)
  | XNoneOf l => MNoneOf (map (tested I) l)
  | XCaseLess m => MCaseLess (tested I m)
  | XSpaceLess m => MSpaceLess (tested I m)
  | _ => MBase (fun _ _ _ => false)
  end.
(** an example of when simple tests are true of numbers: a text is the same as 0, and as 1 too if case is ignored *)
Definition demo (l : leaf) (ci sq : bool) (v : val) : bool :=
  match l, v with
  | LNumber z, VNum x => (z =? x)%Z
  | LCompare GreaterEqual z, VNum x => (z <=? x)%Z
  | LCompare Greater z, VNum x => (z <? x)%Z
  | LCompare LessEqual z, VNum x => (x <=? z)%Z
  | LCompare Less z, VNum x => (x <? z)%Z
  | LSame s, VNum x => if ci then (x <=? 1)%Z else (x =? 0)%Z
  | LAny, _ => true
  | _, _ => false
  end.
(** the options ! ~ * *)
Definition not_flags : flags := apply_op flags0 OpNot.
Definition caseless_flags : flags := apply_op flags0 OpCaseless.
Definition squash_flags : flags := apply_op flags0 OpSquash.

(** how Has of a key and a value, of a key, of a value are called, and what stands in their parentheses *)
Definition has_title (h : has_kind) : bytes := match h with HasBoth => str "Has" | HasKey => str "HasKey" | HasValue => str "HasValue" end.
Definition has_parts (st : styles) (h : has_kind) (k v : list (styles * byte)) : list (styles * byte) :=
  match h with HasBoth => k ++ letters st (str ", ") ++ v | HasKey => k | HasValue => v end.
