(** Model of the command line: h2_candidate (source/utils/h2_misc.cpp:147-167), getopt and h2_option::parse
    (source/option/h2_option.cpp:44-189, source/option/h2_option.hpp:7-47).

    Arguments are C strings: lists of bytes without NUL.  Settings are a function of their names.  Undefined behaviour (a buffer
    overrun, atoi of a number beyond INT_MAX) is an outcome of its own.  The contents of the char array args[256] and of printed
    messages are not kept, only whether they fit. *)
From Coq Require Import List NArith Bool Arith.
From Verif Require Import Base.
Import ListNotations.
Local Open Scope N_scope.

(** !strncasecmp(total, a, strlen(a)) (h2_misc.cpp:156) *)
Fixpoint begins (a total : bytes) : bool :=
  match a, total with [], _ => true | x :: a', y :: t' => (tolower y =? tolower x) && begins a' t' | _ :: _, [] => false end.
(** result of h2_candidate: a candidate; the error text: ambiguous or invalid, the alternatives listed (h2_misc.cpp:160-166) *)
Inductive cand := Found (s : bytes) | Error (ambiguous : bool) (listed : list bytes) | CandUndefined.
(** length of the error text (h2_misc.cpp:163-165): the fixed parts "ambiguous argument: ", ", candidates: " with the colour codes *)
Definition error_length (ambiguous : bool) (a : bytes) (listed : list bytes) : nat :=
  ((if ambiguous then 9 else 7) + 16 + length a + 6 + 10 + 2 + list_sum (map (fun s => length s + 9) listed) + 3 * (length listed - 1))%nat.
(** h2_candidate (h2_misc.cpp:147-167): totals[32], ss[1024] *)
Definition candidate (a : bytes) (totals : list bytes) : cand :=
  if (32 <? length totals)%nat then CandUndefined
  else match filter (begins a) totals with
       | [m] => Found m
       | ms => let amb := match ms with [] => false | _ => true end in
               let listed := match ms with [] => totals | _ => ms end in
               if (1024 <=? error_length amb a listed)%nat then CandUndefined else Error amb listed
       end.

(** the settings of h2_option (h2_option.hpp:19-44) *)
Inductive key :=
| Kcolorful | Kprogressing | Konly_last_failed | Kmemory_check | Kcontinue_assert | Kdebugger_trap | Kexit_with_fails
| Kexception | Kuncaught | Kleak | Kviolate | Kdouble_free | Kasymmetric_free
| Kbreak_after_fails | Krun_rounds | Kfold_json | Kverbose | Kshuffles | Klists | Kquote | Kjunit_path
| Kincludes | Kfile_includes | Ksuite_includes | Kcase_includes | Ktags_includes
| Kexcludes | Kfile_excludes | Ksuite_excludes | Kcase_excludes | Ktags_excludes.
(** their values (h2_option.hpp:20-45) *)
Inductive value := VB (b : bool) | VN (n : N) | VS (s : bytes) | VL (l : list bytes).
(** equality of names (model device) (the members of h2_option.hpp:20-45) *)
Definition key_eq_dec : forall a b : key, {a = b} + {a <> b}. Proof. decide equality. Defined.
(** all settings (h2_option.hpp:20-45) *)
Definition settings := key -> value.
(** assignment to a setting (the assignments of h2_option.cpp:98-181) *)
Definition set (s : settings) (k : key) (v : value) : settings := fun k' => if key_eq_dec k k' then v else s k'.
(** the initial values (h2_option.hpp:21-44); VerboseNormal = 4, FoldMax = 5 *)
Definition defaults : settings := fun k =>
  match k with
  | Kcolorful | Kprogressing | Kmemory_check => VB true
  | Konly_last_failed | Kcontinue_assert | Kdebugger_trap | Kexit_with_fails | Kexception | Kuncaught | Kleak | Kviolate | Kdouble_free | Kasymmetric_free => VB false
  | Kbreak_after_fails => VN 0 | Krun_rounds => VN 1 | Kfold_json => VN 5 | Kverbose => VN 4 | Kshuffles => VN 0 | Klists => VN 0
  | Kquote => VS [] | Kjunit_path => VS []
  | _ => VL []
  end.
(** !x of a bool setting (h2_option.cpp:100, 141, 146) *)
Definition toggle (s : settings) (k : key) : settings := match s k with VB b => set s k (VB (negb b)) | _ => s end.
(** x |= bit (h2_option.cpp:133-136, 151-154) *)
Definition or_bit (s : settings) (k : key) (bit : N) : settings := match s k with VN n => set s k (VN (N.lor n bit)) | _ => s end.
(** if (!x) x = dflt (h2_option.cpp:139, 157) *)
Definition if_none (s : settings) (k : key) (dflt : N) : settings := match s k with VN n => if n =? 0 then set s k (VN dflt) else s | _ => s end.
(** h2_array_append to an array of 128 (h2_misc.hpp:25): at most 127 entries *)
Definition append (s : settings) (k : key) (x : bytes) : settings := match s k with VL l => if (length l <? 127)%nat then set s k (VL (l ++ [x])) else s | _ => s end.

(** a digit (strspn with "0123456789") (h2_option.cpp:67, 77) *)
Definition digit (c : byte) : bool := (48 <=? c) && (c <=? 57).
(** the digits at the beginning and the rest (strspn, h2_option.cpp:67) *)
Fixpoint span (s : bytes) : bytes * bytes := match s with c :: r => if digit c then let (d, q) := span r in (c :: d, q) else ([], s) | [] => ([], []) end.
(** atoi of digits (h2_option.cpp:69, 78) *)
Definition atoi (s : bytes) : N := fold_left (fun n c => 10 * n + (c - 48)) s 0.
(** getopt::extract_string (h2_option.cpp:53): the next argument if it does not begin with a dash *)
Definition extract_string (rest : list bytes) : option (bytes * list bytes) :=
  match rest with (45 :: _) :: _ => None | a :: r => Some (a, r) | [] => None end.
(** the arguments taken by a loop of extract_string (h2_option.cpp:103, 118, 131, 149, 174) *)
Fixpoint extract_strings (rest : list bytes) : list bytes * list bytes :=
  match rest with
  | (45 :: _) :: _ => ([], rest)
  | a :: r => let (l, q) := extract_strings r in (a :: l, q)
  | [] => ([], [])
  end.
(** getopt::next_option (h2_option.cpp:55-62): [j] = what follows in the current argument; an option letter, or the end *)
Fixpoint fetch (rest : list bytes) : option (byte * bytes * list bytes) :=
  match rest with
  | (45 :: c :: r) :: rest' => Some (c, r, rest')
  | _ :: rest' => fetch rest'
  | [] => None
  end.
(** with a letter left in the current argument (h2_option.cpp:58) *)
Definition next_option (j : bytes) (rest : list bytes) : option (byte * bytes * list bytes) :=
  match j with c :: r => Some (c, r, rest) | [] => fetch rest end.
(** getopt::extract_number (h2_option.cpp:64-80): the number, if any, and what remains; None = atoi out of range *)
Definition extract_number (j : bytes) (rest : list bytes) : option (option N * bytes * list bytes) :=
  match span j with
  | ((_ :: _) as d, q) => if atoi d <=? 2147483647 then Some (Some (atoi d), q, rest) else None
  | ([], _) =>
      match rest with
      | a :: r => if negb (length a =? 0)%nat && forallb digit a
                  then if atoi a <=? 2147483647 then Some (Some (atoi a), j, r) else None
                  else Some (None, j, rest)
      | [] => Some (None, j, rest)
      end
  end.
(** what parse ends with (h2_option.cpp:97, 111, 126, 137, 155, 166, 182, 186) *)
Inductive outcome := Done (s : settings) | Exit (code : N) | Undefined.
(** strchr(t, '='): key and value (h2_option.cpp:104-106, 119-121) *)
Fixpoint split_eq (t : bytes) : option (bytes * bytes) :=
  match t with [] => None | c :: r => if c =? 61 then Some ([], r) else option_map (fun p => (c :: fst p, snd p)) (split_eq r) end.
(** one pattern of -i or -e (h2_option.cpp:103-113, 118-128): the keys of the five arrays *)
Definition pattern (ks : key * key * key * key * key) (t : bytes) (s : settings) : outcome :=
  let '(k, kf, ks', kc, kt) := ks in
  match split_eq t with
  | Some (a, v) =>
      if (64 <=? length a)%nat then Undefined
      else match candidate a [str "file"; str "suite"; str "case"; str "tags"] with
           | Found r => if bytes_eqb r (str "file") then Done (append s kf v) else if bytes_eqb r (str "suite") then Done (append s ks' v)
                        else if bytes_eqb r (str "case") then Done (append s kc v) else if bytes_eqb r (str "tags") then Done (append s kt v) else Exit 255
           | Error _ _ => Exit 255
           | CandUndefined => Undefined
           end
  | None => Done (append s k t)
  end.
(** one word of -l (h2_option.cpp:131-137) *)
Definition list_word (t : bytes) (s : settings) : outcome :=
  match candidate t [str "suite"; str "case"; str "todo"; str "tags"] with
  | Found r => if bytes_eqb r (str "suite") then Done (or_bit s Klists 0x10) else if bytes_eqb r (str "case") then Done (or_bit s Klists 0x100)
               else if bytes_eqb r (str "todo") then Done (or_bit s Klists 0x1000) else if bytes_eqb r (str "tags") then Done (or_bit s Klists 0x10000) else Exit 255
  | Error _ _ => Exit 255
  | CandUndefined => Undefined
  end.
(** one word of -s (h2_option.cpp:149-155) *)
Definition shuffle_word (t : bytes) (s : settings) : outcome :=
  match candidate t [str "random"; str "name"; str "file"; str "reverse"] with
  | Found r => if bytes_eqb r (str "random") then Done (or_bit s Kshuffles 0x10) else if bytes_eqb r (str "name") then Done (or_bit s Kshuffles 0x100)
               else if bytes_eqb r (str "file") then Done (or_bit s Kshuffles 0x1000) else if bytes_eqb r (str "reverse") then Done (or_bit s Kshuffles 0x10000) else Exit 255
  | Error _ _ => Exit 255
  | CandUndefined => Undefined
  end.
(** one word of -W (h2_option.cpp:174-182): double_free is compared with but is not among the candidates *)
Definition warning_word (t : bytes) (s : settings) : outcome :=
  match candidate t [str "exception"; str "uncaught"; str "leak"; str "violate"; str "asymmetric_free"] with
  | Found r => if bytes_eqb r (str "exception") then Done (set s Kexception (VB true)) else if bytes_eqb r (str "uncaught") then Done (set s Kuncaught (VB true))
               else if bytes_eqb r (str "leak") then Done (set s Kleak (VB true)) else if bytes_eqb r (str "violate") then Done (set s Kviolate (VB true))
               else if bytes_eqb r (str "double_free") then Done (set s Kdouble_free (VB true)) else if bytes_eqb r (str "asymmetric_free") then Done (set s Kasymmetric_free (VB true))
               else Exit 255
  | Error _ _ => Exit 255
  | CandUndefined => Undefined
  end.
(** the loops over words (h2_option.cpp:103-113, 118-128, 131-138, 149-156, 174-183) *)
Fixpoint each (f : bytes -> settings -> outcome) (ts : list bytes) (s : settings) : outcome :=
  match ts with [] => Done s | t :: r => match f t s with Done s' => each f r s' | o => o end end.
(** -S with a type (h2_option.cpp:159-169) *)
Definition quote_word (t : bytes) (s : settings) : outcome :=
  match candidate t [[39]; str "single"; [34]; str "double"; [92; 34]] with
  | Found r => if bytes_eqb r [39] || bytes_eqb r (str "single") then Done (set s Kquote (VS [39]))
               else if bytes_eqb r [34] || bytes_eqb r (str "double") then Done (set s Kquote (VS [34]))
               else if bytes_eqb r [92; 34] then Done (set s Kquote (VS [92; 34])) else Exit 255
  | Error _ _ => Exit 255
  | CandUndefined => Undefined
  end.
(** extract_number(setting = dflt) (h2_option.cpp:98, 116, 147, 171) *)
Definition number (k : key) (dflt : N) (j : bytes) (rest : list bytes) (s : settings) : outcome * bytes * list bytes :=
  match extract_number j rest with
  | Some (v, j', rest') => (Done (set s k (VN (match v with Some n => n | None => dflt end))), j', rest')
  | None => (Undefined, j, rest)
  end.
(** an option with words (h2_option.cpp:102-140, 148-158, 173-184) *)
Definition words (f : bytes -> settings -> outcome) (fin : settings -> settings) (j : bytes) (rest : list bytes) (s : settings) : outcome * bytes * list bytes :=
  let (ts, rest') := extract_strings rest in (match each f ts s with Done s' => Done (fin s') | o => o end, j, rest').
(** the arrays of -i (h2_option.cpp:122-127) *)
Definition include_keys := (Kincludes, Kfile_includes, Ksuite_includes, Kcase_includes, Ktags_includes).
(** the arrays of -e (h2_option.cpp:107-112) *)
Definition exclude_keys := (Kexcludes, Kfile_excludes, Ksuite_excludes, Kcase_excludes, Ktags_excludes).
(** -o (h2_option.cpp:142-145): junit_path[256]; [path] = argv[0] *)
Definition output (path : bytes) (j : bytes) (rest : list bytes) (s : settings) : outcome * bytes * list bytes :=
  if (245 <? length path)%nat then (Undefined, j, rest)
  else match extract_string rest with
       | Some (t, rest') => (if (255 <? length t)%nat then Undefined else Done (set s Kjunit_path (VS t)), j, rest')
       | None => (Done (set s Kjunit_path (VS (path ++ str ".junit.xml"))), j, rest)
       end.
(** the switch of parse (h2_option.cpp:96-187) *)
Definition step (path : bytes) (c : byte) (j : bytes) (rest : list bytes) (s : settings) : outcome * bytes * list bytes :=
  if c =? 98 then number Kbreak_after_fails 1 j rest s
  else if c =? 99 then (Done (set s Kcontinue_assert (VB true)), j, rest)
  else if c =? 67 then (Done (toggle s Kcolorful), j, rest)
  else if c =? 100 then (Done (set s Kdebugger_trap (VB true)), j, rest)
  else if c =? 101 then words (pattern exclude_keys) (fun x => x) j rest s
  else if c =? 102 then (Done (set s Konly_last_failed (VB true)), j, rest)
  else if c =? 70 then number Kfold_json 0 j rest s
  else if c =? 105 then words (pattern include_keys) (fun x => x) j rest s
  else if c =? 108 then words list_word (fun x => if_none x Klists 0x1110) j rest s
  else if c =? 109 then (Done (toggle s Kmemory_check), j, rest)
  else if c =? 111 then output path j rest s
  else if c =? 112 then (Done (toggle s Kprogressing), j, rest)
  else if c =? 114 then number Krun_rounds 2 j rest s
  else if c =? 115 then words shuffle_word (fun x => if_none x Kshuffles 0x10) j rest s
  else if c =? 83 then let s1 := set s Kquote (VS [92; 34]) in match extract_string rest with Some (t, rest') => (quote_word t s1, j, rest') | None => (Done s1, j, rest) end
  else if c =? 118 then number Kverbose 8 j rest s
  else if c =? 120 then (Done (set s Kexit_with_fails (VB true)), j, rest)
  else if c =? 87 then words warning_word (fun x => x) j rest s
  else if (c =? 104) || (c =? 63) then (Exit 0, j, rest)
  else (Done s, j, rest).
(** the loop of parse (h2_option.cpp:95-188), at most [fuel] times; None = goes on *)
Fixpoint loop (path : bytes) (fuel : nat) (j : bytes) (rest : list bytes) (s : settings) : option outcome :=
  match fuel with
  | O => None
  | S f =>
      match next_option j rest with
      | None => Some (Done s)
      | Some (c, j1, rest1) => match step path c j1 rest1 s with (Done s', j2, rest2) => loop path f j2 rest2 s' | (o, _, _) => Some o end
      end
  end.
(** characters left, for the number of turns (not in the code: bounds the loop of h2_option.cpp:95) *)
Definition size (j : bytes) (rest : list bytes) : nat := (length j + list_sum (map (fun a => S (length a)) rest))%nat.
(** h2_option::parse (h2_option.cpp:88-189); args[256] holds all arguments, each behind a space *)
Definition parse_args (path : bytes) (args : list bytes) (s : settings) : option outcome :=
  if (255 <? size [] args)%nat then Some Undefined else loop path (S (size [] args)) [] args s.
