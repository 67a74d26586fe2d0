(** What the line that reports a failed check has to show. *)
From Coq Require Import List NArith Bool Arith.
From Verif Require Import Base LineSpec StrdiffSpec ListingSpec JunitSpec.
Import ListNotations.
Local Open Scope N_scope.

(** the styles in force, the oldest first *)
Definition styles := list bytes.
(** names separated by commas *)
Fixpoint names (cur s : bytes) : styles := match s with [] => [cur] | c :: r => if c =? 44 then cur :: names [] r else names (cur ++ [c]) r end.
(** a style word: ESC, a brace, names, a brace.  reset ends all styles, plus adds, minus ends the names *)
Definition restyle (w : bytes) (st : styles) : styles :=
  let b := removelast (skipn 2 w) in
  if bytes_eqb b (str "reset") then []
  else match b with
       | 43 :: n => st ++ names [] n
       | 45 :: n => filter (fun x => negb (existsb (bytes_eqb x) (names [] n))) st
       | _ => st ++ names [] b
       end.
(** the bytes of a line, each with the styles in force *)
Fixpoint ink (st : styles) (l : list bytes) : list (styles * byte) :=
  match l with [] => [] | w :: r => if is_style w then ink (restyle w st) r else map (pair st) w ++ ink st r end.
(** the styles in force behind it *)
Fixpoint behind_line (st : styles) (l : list bytes) : styles :=
  match l with [] => st | w :: r => behind_line (if is_style w then restyle w st else st) r end.

(** text in a style *)
Definition letters (st : styles) (s : bytes) : list (styles * byte) := map (pair st) s.
(** text in dark gray *)
Definition grayed (st : styles) (s : bytes) : list (styles * byte) := letters (st ++ [str "dark gray"]) s.
(** the quotes around a string or character literal in dark gray as well *)
Definition dim (p : styles * byte) : styles * byte := (fst p ++ [str "dark gray"], snd p).
Definition quoted (o : list (styles * byte)) : list (styles * byte) :=
  match o with
  | p :: r =>
      if ((snd p =? 34) || (snd p =? 39)) && (snd (last o p) =? snd p)
      then match rev r with [] => [dim p] | q :: m => dim p :: rev m ++ [dim q] end
      else o
  | [] => []
  end.

Definition null_words : list bytes :=
  [str "0"; str "0x0"; str "00000000"; str "0000000000000000"; str "NULL"; str "null"; str "nullptr"; str "__null"; str "(null)"; str "(nil)"; str "((void *)0)"].
Definition something_words : list bytes :=
  [str "!NULL"; str "!nullptr"; str "Not(NULL)"; str "Not(nullptr)"; str "Not(0)"; str "Nq(NULL)"; str "Nq(nullptr)"; str "Nq(0)"].
Definition yes_words : list bytes := [str "1"; str "true"; str "True"; str "TRUE"].
Definition no_words : list bytes := [str "0"; str "false"; str "False"; str "FALSE"].
(** an expression that tells the value as well as the value itself: the same text, another word for it, Eq or ListOf of it *)
Inductive tells : bytes -> bytes -> Prop :=
| t_same x : tells x x
| t_words l x y : In l [null_words; something_words; yes_words; no_words] -> In x l -> In y l -> tells x y
| t_eq y : tells (str "Eq(" ++ y ++ str ")") y
| t_list y : tells (str "ListOf(" ++ y ++ str ")") (str "[" ++ y ++ str "]")
| t_list_bare y : ~ (exists z, y = str "[" ++ z ++ str "]") -> tells (str "ListOf(" ++ y ++ str ")") y.
(** no ESC and no NUL *)
Definition calm (s : bytes) : Prop := ~ In 27 s /\ ~ In 0 s.
(** takes at most W columns, line feeds, carriage returns and tabs spelled out *)
Definition fits (W : nat) (s : bytes) : Prop := exists cs, spelled s = concat cs /\ Forall good_char cs /\ (list_sum (map cellw cs) <= W)%nat.
(** an expression of at most W columns, or of one byte characters *)
Definition wholesome (W : nat) (s : bytes) : Prop := s <> [] /\ calm s /\ (fits W s \/ Forall plain s).
(** an expression shown in at most W columns: whole, or its beginning, three gray dots and its last [tail] characters *)
Definition shown (W tail : nat) (st : styles) (s : bytes) (o : list (styles * byte)) : Prop :=
  (fits W s -> o = letters st (spelled s)) /\
  (~ fits W s -> o = letters st (firstn (W - 3 - tail) (spelled s)) ++ grayed st (str "...") ++ letters st (skipn (length (spelled s) - tail) (spelled s))).
(** a value: a line of whole characters, not wider than W or of one byte characters *)
Definition fits_line (W : nat) (l : list bytes) : Prop := exists its, spells (escaped l) its /\ (columns its <= W)%nat.
Definition whole_value (W : nat) (l : list bytes) : Prop := proper l /\ ~ In 0 (spoken l) /\ (fits_line W l \/ Forall plain (spoken l)).
(** a value in at most W columns *)
Definition shown_value (W : nat) (st : styles) (l : list bytes) (o : list (styles * byte)) : Prop :=
  (fits_line W l -> o = ink st (escaped l)) /\
  (Forall plain (spoken l) -> (W < length (spelled (spoken l)))%nat -> map snd o = shortened (W - 3 - 3) 3 (spelled (spoken l))).
(** nothing to see *)
Definition void (l : list bytes) : Prop := spoken l = [].

(** the arrows *)
Definition to_right : bytes := [0xe2; 0x9f; 0xb9; 32; 32].
Definition to_left : bytes := [0xe2; 0x9f; 0xb8; 32; 32].
Definition green : styles := [str "green"].
Definition cyan : styles := [str "cyan"].
Definition red : styles := [str "bold"; str "red"].

(** the expected side: the expression, an arrow and the value; only the expression if there is no value or it tells the value.
    [M] is the most that is shown of anything, [W] of an expression with a value *)
Definition shows_expected (M W : nat) (e : bytes) (v : list bytes) (o : list (styles * byte)) : Prop :=
  (void v -> exists x, shown M 3 green e x /\ o = quoted x) /\
  (~ void v -> tells (spelled e) (spelled (spoken v)) -> shown M 3 green e o) /\
  (~ void v -> ~ tells (spelled e) (spelled (spoken v)) ->
     exists x y, shown W 3 cyan e x /\ shown_value M green v y /\ o = quoted x ++ grayed [] to_right ++ y).
(** the actual side: the value, an arrow and the expression; only the value if the expression tells it or is missing; only the
    expression if there is no value *)
Definition shows_actual (M W : nat) (a : bytes) (v : list bytes) (o : list (styles * byte)) : Prop :=
  (void v -> exists x, shown M 3 red a x /\ o = quoted x) /\
  (~ void v -> tells (spelled a) (spelled (spoken v)) \/ a = [] -> shown_value M red v o) /\
  (~ void v -> ~ tells (spelled a) (spelled (spoken v)) -> a <> [] ->
     exists x y, shown_value M red v x /\ shown W 3 cyan a y /\ o = x ++ grayed [] to_left ++ quoted y).
(** the place: the name of the file and the line, without directories; nothing if there is none *)
Definition shows_place (filine : bytes) (o : list (styles * byte)) : Prop :=
  (Forall (fun c => c = 32 \/ 9 <= c <= 13) filine -> o = []) /\
  (~ Forall (fun c => c = 32 \/ 9 <= c <= 13) filine -> exists f, last_part filine f /\ o = grayed [] (str " at ") ++ letters [] f).
(** behind what was checked: the explanation, that of the user and the place; [some] : something was explained before *)
Definition shows_rest (some : bool) (explain : list bytes) (user filine : bytes) (o : list (styles * byte)) : Prop :=
  exists x y z, o = x ++ y ++ z /\
    (void explain -> x = []) /\
    (~ void explain -> x = letters [] (if some then str ", " else str " ") ++ ink [] explain) /\
    (user = [] -> y = []) /\
    (user <> [] -> void explain -> some = false -> y = letters [] (str " " ++ user)) /\
    (user <> [] -> ~ void explain \/ some = true -> y = letters [] (str ", " ++ user)) /\
    shows_place filine z.
(** without the quotes around it, if there are any *)
Definition peeled (q : byte) (s t : bytes) : Prop := s = q :: t ++ [q] \/ (t = s /\ ~ exists x, s = q :: x ++ [q]).
(** a number in front *)
Definition shows_number (n : option N) (o : list (styles * byte)) : Prop :=
  match n with Some n => exists d, decimal d n /\ o = grayed [] (d ++ str ". ") | None => o = [] end.
(** a line that leaves no style behind *)
Definition closed (l : list bytes) : Prop := behind_line [] l = [].
(** most columns of anything: 10000 *)
Definition most : nat := (100 * 100)%nat.
(** a written expression *)
Definition legible (s : bytes) : Prop := s <> [] /\ calm s /\ exists cs, s = concat cs /\ Forall good_char cs.
(** explanations and place without style changes that stay *)
Definition unobtrusive (explain : list bytes) (user filine : bytes) : Prop := closed explain /\ proper explain /\ ~ In 27 user /\ ~ In 27 filine.
(** a side of JE *)
Definition json_fine (W : nat) (s t : bytes) : Prop := s <> [] /\ s <> [34] /\ exists x, peeled 34 s x /\ x <> [] /\ x <> [39] /\ peeled 39 x t /\ calm t /\ (fits W t \/ Forall plain t).
(** the values of an inner failure *)
Definition shows_values (W : nat) (e a : list bytes) (o : list (styles * byte)) : Prop :=
  exists x y, o = x ++ y /\ (void e -> x = []) /\ (~ void e -> exists v, shown_value W green e v /\ x = letters [] (str "expect is ") ++ v) /\
    (void a -> y = []) /\ (~ void a -> exists v, shown_value W red a v /\ y = letters [] ((if match x with [] => true | _ => false end then [] else str ", ") ++ str "actual is ") ++ v).
