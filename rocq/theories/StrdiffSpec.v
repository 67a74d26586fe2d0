(** What has to follow the first line of a failed string comparison. *)
From Coq Require Import List NArith Bool Arith.
From Verif Require Import Base LineModel LineSpec.
Import ListNotations.
Local Open Scope N_scope.

(** a whole character whose further bytes are no ASCII; no NUL *)
Definition good_char (c : bytes) : Prop := is_char c /\ ~ In 0 c /\ ((2 <= length c)%nat -> Forall (fun b => 128 <= b) c).
(** how a character is drawn: line feed, carriage return and tab spelled out, a space as a dot if there are colours *)
Definition drawn (colorful : bool) (c : bytes) : list bytes :=
  match c with
  | [10] => [str "\"; str "n"] | [13] => [str "\"; str "r"] | [9] => [str "\"; str "t"]
  | [32] => if colorful then [[0xe2; 0x80; 0xa7]] else [c]
  | _ => [c]
  end.
(** its colour *)
Definition hue (colorful common : bool) (style c : bytes) : option bytes :=
  if colorful && match c with [32] => true | _ => false end then Some (str "dark gray") else if common then None else Some style.
(** a text whose characters are marked as common with the other one or not *)
Fixpoint diff_cells (colorful : bool) (style : bytes) (marks : list bool) (cs : list bytes) : list (option bytes * bytes) :=
  match marks, cs with
  | m :: ms, c :: r => map (fun x => (hue colorful m style c, x)) (drawn colorful c) ++ diff_cells colorful style ms r
  | _, _ => []
  end.
(** the colour behind a style word: none at the beginning, behind reset and behind a colour switched off *)
Definition tone (st : bytes) : option bytes :=
  match st with
  | [] => None
  | _ => match skipn 2 st with
         | 45 :: _ => None
         | 43 :: r => Some (removelast r)
         | r => if bytes_eqb r (str "reset}") then None else Some (removelast r)
         end
  end.
(** characters with their colours *)
Definition seen (its : list item) : list (option bytes * bytes) := map (fun p => (tone (fst p), snd p)) (tagged [] its).
(** one of each in turn, then the rest *)
Fixpoint weave {A} (x y : list A) : list A := match x, y with a :: x', b :: y' => a :: b :: weave x' y' | [], _ => y | _, [] => x end.
(** the title before a row: dark gray, the arrow in colour *)
Definition titled (l : line) (title style : bytes) : Prop :=
  exists its, spells l its /\ seen its = map (fun c => (Some (str "dark gray"), [c])) title ++ map (fun c => (Some style, [c])) (str "> ") /\ tone (fold_left (fun st i => match i with Ctl w => w | Cell _ => st end) its []) = None.
(** the title in the first row, eight blanks in the others *)
Definition behind (t : line) (ls : list line) : list line := match ls with [] => [] | x :: r => (t ++ x) :: map (cons (repeat 32 8)) r end.
