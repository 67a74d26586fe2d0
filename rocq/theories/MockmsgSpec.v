(** What the reports of a mock have to tell. *)
From Coq Require Import List NArith ZArith Bool Arith.
From Verif Require Import Base MessageSpec JunitSpec MockModel MockmsgModel.
Import ListNotations.
Local Open Scope N_scope.

(** ** expectations *)
(** no more calls than this can be counted: no limit *)
Definition unlimited : Z := 2147483647.
(** numbers of calls that can be asked for *)
Definition sensible (b : bounds) : Prop :=
  match b with
  | Once | Twice | Any => True
  | Times n | Atleast n | Atmost n => 0 <= n <= unlimited
  | Between l r => 0 <= l <= r /\ r <= unlimited
  end%Z.
(** is a number of calls as expected *)
Definition within (b : bounds) (n : Z) : Prop :=
  match b with Once => n = 1 | Twice => n = 2 | Times k => n = k | Any => True | Atleast k => k <= n | Atmost k => n <= k | Between l r => l <= n <= r end%Z.
(** the numbers from and to which are as expected *)
Definition lowest (b : bounds) : Z := match b with Once => 1 | Twice => 2 | Times k => k | Any => 0 | Atleast k => k | Atmost _ => 0 | Between l _ => l end.
Definition highest (b : bounds) : Z := match b with Once => 1 | Twice => 2 | Times k => k | Any => unlimited | Atleast _ => unlimited | Atmost k => k | Between _ r => r end.
Definition word (b : bounds) : bytes :=
  match b with Once => str "Once" | Twice => str "Twice" | Times _ => str "Times" | Any => str "Any" | Atleast _ => str "Atleast" | Atmost _ => str "Atmost" | Between _ _ => str "Between" end.
(** the expectations that were not met, with their numbers, counted from [i] *)
Inductive broken : N -> list (bounds * Z) -> list (N * (bounds * Z)) -> Prop :=
| b_nil i : broken i [] []
| b_met i b n r l : within b n -> broken (i + 1) r l -> broken i ((b, n) :: r) l
| b_not i b n r l : ~ within b n -> broken (i + 1) r l -> broken i ((b, n) :: r) ((i, (b, n)) :: l).

(** ** reading a report *)
Definition visible (l : list bytes) : bytes := map snd (ink [] l).
Fixpoint words (s : bytes) : list bytes :=
  match s with [] => [[]] | c :: r => match words r with w :: ws => if c =? 32 then [] :: w :: ws else (c :: w) :: ws | [] => [] end end.
Fixpoint behind (p s : bytes) : option bytes :=
  match p, s with [], _ => Some s | c :: p', x :: s' => if c =? x then behind p' s' else None | _ :: _, [] => None end.
Definition numeral (w : bytes) : option Z :=
  match w with [] => None | _ => if forallb (fun c => (48 <=? c) && (c <=? 57)) w then Some (Z.of_N (fold_left (fun a c => 10 * a + (c - 48)) w 0)) else None end.
(** numbers from and to, and the words behind *)
Definition read_range (ws : list bytes) : option (Z * Z * list bytes) :=
  match ws with
  | a :: b :: r =>
      if bytes_eqb a (str "never") && bytes_eqb b (str "called") then Some (0%Z, 0%Z, r)
      else if bytes_eqb a (str "any") && bytes_eqb b (str "number") then match r with c :: d :: r' => if bytes_eqb c (str "of") && bytes_eqb d (str "times") then Some (0%Z, unlimited, r') else None | _ => None end
      else if bytes_eqb a (str "exactly") then match numeral b, r with Some n, c :: r' => if bytes_eqb c (str "times") then Some (n, n, r') else None | _, _ => None end
      else match r with
           | c :: d :: r' =>
               if bytes_eqb a (str "at") && bytes_eqb b (str "most") && bytes_eqb d (str "times") then match numeral c with Some n => Some (0%Z, n, r') | None => None end
               else if bytes_eqb a (str "at") && bytes_eqb b (str "least") && bytes_eqb d (str "times") then match numeral c with Some n => Some (n, unlimited, r') | None => None end
               else if bytes_eqb a (str "between") && bytes_eqb c (str "and") then
                 match numeral b, numeral d, r' with Some n, Some m, e :: r2 => if bytes_eqb e (str "times") then Some (n, m, r2) else None | _, _, _ => None end
               else None
           | _ => None
           end
  | _ => None
  end.
Definition read_count (ws : list bytes) : option (Z * list bytes) :=
  match ws with
  | a :: r => if bytes_eqb a (str "never") then Some (0%Z, r) else match numeral a, r with Some n, b :: r' => if bytes_eqb b (str "times") then Some (n, r') else None | _, _ => None end
  | [] => None
  end.
(** 1st, 2nd and so on *)
Definition read_ordinal (w : bytes) : option Z :=
  match rev w with
  | b :: a :: r => if existsb (bytes_eqb [a; b]) [str "st"; str "nd"; str "rd"; str "th"] then numeral (rev r) else None
  | _ => None
  end.
Definition read_place (ws : list bytes) : option (option (Z * bytes)) :=
  match ws with
  | [] => Some None
  | [a; b; c] => if bytes_eqb a (str "when") then option_map (fun n => Some (n, c)) (read_ordinal b) else None
  | _ => None
  end.
(** what a line tells of the calls of a function: expected at least, at most, number of calls, which expectation *)
Definition read (name s : bytes) : option (Z * Z * Z * option (Z * bytes)) :=
  match behind (name ++ str "() expected ") s with
  | Some t =>
      match read_range (words t) with
      | Some (lo, hi, a :: b :: ws) =>
          if bytes_eqb a (str "but") && bytes_eqb b (str "actually") then
            match read_count ws with
            | Some (n, c :: ws') => if bytes_eqb c (str "called") then option_map (fun p => (lo, hi, n, p)) (read_place ws') else None
            | _ => None
            end
          else None
      | _ => None
      end
  | None => None
  end.
(** ** arguments *)
(** with commas between *)
Fixpoint joined (l : list bytes) : bytes := match l with [] => [] | [t] => t | t :: r => t ++ str ", " ++ joined r end.
Fixpoint separate (os : list (list (styles * byte))) : list (styles * byte) := match os with [] => [] | [o] => o | o :: r => o ++ grayed [] (str ", ") ++ separate r end.
(** the types, number [j] counted from [i] in bold red, the others in no style *)
Fixpoint marked (i j : N) (ts : list bytes) : list (list (styles * byte)) :=
  match ts with [] => [] | t :: r => letters (if i =? j then [str "red"; str "bold"] else [[]]) t :: marked (i + 1) j r end.
(** the numbers of the arguments that were rejected and what their matchers say, counted from [i] *)
Inductive rejected : N -> list (list note) -> list (N * note) -> Prop :=
| r_nil i : rejected i [] []
| r_good i r l : rejected (i + 1) r l -> rejected i ([] :: r) l
| r_bad i n r l : rejected (i + 1) r l -> rejected i ([n] :: r) ((i, n) :: l).
(** English ordinals *)
Definition suffix (n : N) : bytes :=
  if (n / 10) mod 10 =? 1 then str "th" else if n mod 10 =? 1 then str "st" else if n mod 10 =? 2 then str "nd" else if n mod 10 =? 3 then str "rd" else str "th".
(** names without colour words *)
Definition fine (f : function) : Prop := ~ In 27 (f_return f) /\ ~ In 27 (f_name f) /\ Forall (fun t => ~ In 27 t) (f_types f) /\ ~ In 27 (f_filine f).
(** a line that tells of expectation [i] of [total] *)
Definition reported (name : bytes) (total : nat) (p : N * (bounds * Z)) (l : list bytes) : Prop :=
  let '(i, (b, n)) := p in
  exists d m, decimal d i /\ visible l = str "   " ++ d ++ str ". " ++ m /\
    read name m = Some (lowest b, highest b, n, if (1 <? total)%nat then Some (Z.of_N i + 1, word b)%Z else None).
(** the line above: what is mocked, and where *)
Definition headed (f : function) (l : list bytes) : Prop :=
  exists p, shows_place (f_filine f) p /\ visible l = str " MOCK<" ++ f_return f ++ str " " ++ f_name f ++ str "(" ++ joined (f_types f) ++ str ")>" ++ map snd p.
(** an explanation [x] that tells that argument [j] of the function was rejected by expectation [i] of [total] *)
Definition explains (f : function) (total i j : N) (kind : bytes) (x : list bytes) : Prop :=
  closed x /\ exists w, ink [] x = grayed [] (str "on ") ++ letters [] (f_name f) ++ grayed [] (str "(") ++ separate (marked 0 j (f_types f)) ++ grayed [] (str ")") ++ w /\
    (total <= 1 -> w = []) /\ (1 < total -> exists d s, decimal d (i + 1) /\ length s = 2%nat /\ map snd w = str " when " ++ d ++ s ++ str " " ++ kind).
