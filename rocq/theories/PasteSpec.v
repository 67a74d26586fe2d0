(** What pasting a text into C source means. *)
From Coq Require Import List NArith ZArith Bool Arith.
From Verif Require Import Base ExprModel ExprSpec JsonModel JsonSpec.
Import ListNotations.
Local Open Scope N_scope.

(** ** reading a string literal (C11 5.1.1.2, 6.4.4.4, 6.4.5) *)
(** a backslash and a newline behind it are deleted *)
Fixpoint splice (s : bytes) : bytes :=
  match s with
  | [] => []
  | c :: r => match r with d :: r' => if (c =? 92) && (d =? 10) then splice r' else c :: splice r | [] => [c] end
  end.
(** the simple escapes *)
Definition escaped (c : byte) : option byte :=
  if (c =? 34) || (c =? 39) || (c =? 92) || (c =? 63) then Some c
  else if c =? 97 then Some 7 else if c =? 98 then Some 8 else if c =? 102 then Some 12 else if c =? 110 then Some 10
  else if c =? 114 then Some 13 else if c =? 116 then Some 9 else if c =? 118 then Some 11 else None.
(** the characters up to the closing quote, and what is behind it; no newline inside *)
Fixpoint chars (s : bytes) : option (bytes * bytes) :=
  match s with
  | [] => None
  | c :: r =>
      if c =? 34 then Some ([], r)
      else if c =? 10 then None
      else if c =? 92 then match r with d :: r' => match escaped d, chars r' with Some x, Some (t, k) => Some (x :: t, k) | _, _ => None end | [] => None end
      else match chars r with Some (t, k) => Some (c :: t, k) | None => None end
  end.
Definition blank (c : byte) : bool := (c =? 32) || ((9 <=? c) && (c <=? 13)).
(** a source text that is one string literal and nothing else but white space behind it: its value *)
Definition c_value (source : bytes) : option bytes :=
  match splice source with
  | 34 :: r => match chars r with Some (t, k) => if forallb blank k then Some t else None | None => None end
  | _ => None
  end.

(** ** values that can be pasted with quotes [qd] inside *)
Definition plain (qd c : byte) : Prop := c <> 0 /\ c <> 10 /\ c <> 34 /\ c <> 92 /\ c <> qd.
Inductive copyable (A : alg) (show : R A -> bytes) (qd : byte) : value (R A) -> Prop :=
| Cp_null : copyable A show qd Null
| Cp_bool b : copyable A show qd (Bool b)
| Cp_num x : json_number A x (show x) -> copyable A show qd (Num x)
| Cp_str s : Forall (plain qd) s -> copyable A show qd (Str s)
| Cp_pat p : Forall (plain 47) p -> copyable A show qd (Pat p)
| Cp_arr l : Forall (copyable A show qd) l -> copyable A show qd (Arr l)
| Cp_obj l : Forall (fun p => fst p <> [] /\ Forall (plain qd) (fst p) /\ copyable A show qd (snd p)) l -> copyable A show qd (Obj l).
(** the quotes of option -S that make a literal: an escaped double quote, a single quote *)
Definition literal_quote (q : bytes) (qd : byte) : Prop := (q = [92; 34] /\ qd = 34) \/ (q = [39] /\ qd = 39).
(** bytes of ASCII only *)
Inductive ascii {num : Type} (show : num -> bytes) : value num -> Prop :=
| As_null : ascii show Null
| As_bool b : ascii show (Bool b)
| As_num x : Forall (fun c => c < 128) (show x) -> ascii show (Num x)
| As_str s : Forall (fun c => c < 128) s -> ascii show (Str s)
| As_pat p : Forall (fun c => c < 128) p -> ascii show (Pat p)
| As_arr l : Forall (ascii show) l -> ascii show (Arr l)
| As_obj l : Forall (fun p => Forall (fun c => c < 128) (fst p) /\ ascii show (snd p)) l -> ascii show (Obj l).
