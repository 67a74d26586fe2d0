(** Reading what -h prints. *)
From Coq Require Import List NArith Bool Arith.
From Verif Require Import Base OptionModel OptionSpec UsageModel.
Import ListNotations.
Local Open Scope N_scope.

(** pieces between separators *)
Fixpoint cut (sep : byte) (s : bytes) : list bytes :=
  match s with
  | [] => [[]]
  | c :: r => if c =? sep then [] :: cut sep r else match cut sep r with p :: ps => (c :: p) :: ps | [] => [[c]] end
  end.
(** a text without its colours *)
Fixpoint uncoloured (within : bool) (s : bytes) : bytes :=
  match s with
  | [] => []
  | c :: r => if within then uncoloured (negb (c =? 109)) r else if c =? 27 then uncoloured true r else c :: uncoloured false r
  end.
(** columns of a line: between the bytes of a vertical bar *)
Fixpoint columns (s : bytes) : list bytes :=
  match s with
  | 226 :: 148 :: 130 :: r => [] :: columns r
  | c :: r => match columns r with p :: ps => (c :: p) :: ps | [] => [[c]] end
  | [] => [[]]
  end.
(** how many characters a line has (UTF-8) *)
Definition width (s : bytes) : nat := length (filter (fun c => negb ((128 <=? c) && (c <=? 191))) s).
(** the lines after the one with the version *)
Definition body (p : bytes) : list bytes := map (uncoloured false) (removelast (tl (cut 10 p))).
(** rows of the table: letters, argument, explanation *)
Definition rows (p : bytes) : list (bytes * bytes * bytes) :=
  flat_map (fun l => match columns l with [[]; a; b; c; []] => [(filter (fun x => negb (existsb (N.eqb x) (str " -/"))) a, b, c)] | _ => [] end) (body p).
(** the letters listed *)
Definition listed (p : bytes) : bytes := flat_map (fun r => fst (fst r)) (rows p).
(** the row of a letter *)
Definition row (p : bytes) (c : byte) : bytes * bytes * bytes := match find (fun r => existsb (N.eqb c) (fst (fst r))) (rows p) with Some r => r | None => ([], [], []) end.
(** does the table give the letter an argument *)
Definition takes (p : bytes) (c : byte) : bool := existsb (fun x => negb (x =? 32)) (snd (fst (row p c))).
(** the number the table gives for a letter without one: [[n=2]] *)
Definition given (p : bytes) (c : byte) : option N :=
  match filter (fun x => negb (x =? 32)) (snd (fst (row p c))) with
  | 91 :: 110 :: 61 :: r => match rev r with 93 :: d => if forallb ten d then Some (number_from 0 (rev d)) else None | _ => None end
  | _ => None
  end.
(** a shell takes backslash and character for the character *)
Fixpoint shell (w : bytes) : bytes := match w with 92 :: c :: r => c :: shell r | c :: r => c :: shell r | [] => [] end.
(** the words the explanation has in brackets, with blanks or slashes between *)
Definition types (p : bytes) (c : byte) : list bytes :=
  match cut 91 (snd (row p c)) with _ :: t :: _ => map shell (flat_map (cut 47) (cut 32 (hd [] (cut 93 t)))) | _ => [] end.
(** the words the explanation has with slashes between *)
Definition slashed (p : bytes) (c : byte) : list bytes := flat_map (fun w => match cut 47 w with [_] => [] | ws => ws end) (cut 32 (snd (row p c))).
(** what the lines about a topic explain: the words before the colon *)
Definition explained (p : bytes) : list bytes := map (fun l => hd [] (cut 58 (uncoloured false l))) (removelast (cut 10 p)).
(** what stands before = in them *)
Definition before_equals (p : bytes) : list bytes :=
  flat_map (fun w => match cut 61 w with [k; _] => [last (cut 32 k) []] | _ => [] end) (explained p).
(** a version that is written in one line *)
Definition one_line (version date revision : bytes) : Prop := ~ In 10 (version ++ date ++ revision).
(** the topics of -h *)
Definition topics : list bytes := [str "i"; str "e"; str "W"].
(** [p] is printed by -h followed by [rest], and is the table *)
Definition table (v d r : bytes) (rest : list bytes) (p : bytes) : Prop := one_line v d r /\ ~ In (hd [] rest) topics /\ help v d r rest = Some p.
(** the word is taken *)
Definition taken (f : bytes -> settings -> outcome) (t : bytes) : Prop := forall s, exists s', f t s = Done s'.
(** the word is refused *)
Definition refused (f : bytes -> settings -> outcome) (t : bytes) : Prop := forall s, f t s = Exit 255.
