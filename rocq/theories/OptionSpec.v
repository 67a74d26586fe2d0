(** What command lines mean. *)
From Coq Require Import List NArith Bool Arith.
From Verif Require Import Base OptionModel.
Import ListNotations.
Local Open Scope N_scope.

(** [w] begins [n], upper and lower case alike *)
Definition ci_prefix (w n : bytes) : Prop := exists a b, n = a ++ b /\ map lower a = map lower w.
(** [w] is short for [n]: the only one among [cands] beginning so *)
Definition abbrev (cands : list bytes) (w n : bytes) : Prop := exists l r, cands = l ++ n :: r /\ ci_prefix w n /\ Forall (fun x => ~ ci_prefix w x) (l ++ r).

(** what a pattern is compared with *)
Inductive field := Any | File | Suite | Case | Tags.
(** a switch with its arguments *)
Inductive sw :=
| On (k : key) | Toggle (k : key) | Num (k : key) (v : option bytes) | Pats (incl : bool) (ps : list (field * bytes))
| Lists (ns : list bytes) | Shuffles (ns : list bytes) | Warnings (ns : list bytes) | Out (p : option bytes) | Quote (q : option bytes).
(** switches that are on or off *)
Definition on_letters : list (key * byte) := [(Kcontinue_assert, 99); (Kdebugger_trap, 100); (Konly_last_failed, 102); (Kexit_with_fails, 120)].
(** switches that turn something over *)
Definition toggle_letters : list (key * byte) := [(Kcolorful, 67); (Kmemory_check, 109); (Kprogressing, 112)].
(** switches with a number, and the value without one *)
Definition num_letters : list (key * byte * N) := [(Kbreak_after_fails, 98, 1); (Kfold_json, 70, 0); (Krun_rounds, 114, 2); (Kverbose, 118, 8)].
(** names of the settings of -W, the bits of -l and -s *)
Definition warning_keys : list (bytes * key) := [(str "exception", Kexception); (str "uncaught", Kuncaught); (str "leak", Kleak); (str "violate", Kviolate); (str "asymmetric_free", Kasymmetric_free)].
Definition list_bits : list (bytes * N) := [(str "suite", 0x10); (str "case", 0x100); (str "todo", 0x1000); (str "tags", 0x10000)].
Definition shuffle_bits : list (bytes * N) := [(str "random", 0x10); (str "name", 0x100); (str "file", 0x1000); (str "reverse", 0x10000)].
Definition quotes : list (bytes * bytes) := [([39], [39]); (str "single", [39]); ([34], [34]); (str "double", [34]); ([92; 34], [92; 34])].
Definition fields : list (bytes * field) := [(str "file", File); (str "suite", Suite); (str "case", Case); (str "tags", Tags)].
(** looking a name up *)
Definition look {A} (d : A) (l : list (bytes * A)) (n : bytes) : A := match find (fun p => bytes_eqb (fst p) n) l with Some p => snd p | None => d end.
(** the array of a field *)
Definition field_key (incl : bool) (f : field) : key :=
  match f with
  | Any => if incl then Kincludes else Kexcludes | File => if incl then Kfile_includes else Kfile_excludes | Suite => if incl then Ksuite_includes else Ksuite_excludes
  | Case => if incl then Kcase_includes else Kcase_excludes | Tags => if incl then Ktags_includes else Ktags_excludes
  end.
(** a decimal number *)
Fixpoint number_from (n : N) (d : bytes) : N := match d with [] => n | c :: r => number_from (10 * n + (c - 48)) r end.
(** value of a switch with a number *)
Definition num_default (k : key) : N := match k with Kbreak_after_fails => 1 | Krun_rounds => 2 | Kverbose => 8 | _ => 0 end.
(** what a switch makes of setting [k] *)
Definition effect (path : bytes) (w : sw) (k : key) (v : value) : value :=
  match w, v with
  | On k', _ => if key_eq_dec k' k then VB true else v
  | Toggle k', VB b => if key_eq_dec k' k then VB (negb b) else v
  | Num k' o, _ => if key_eq_dec k' k then VN (match o with Some d => number_from 0 d | None => num_default k' end) else v
  | Pats incl ps, VL l => VL (firstn 127 (l ++ map snd (filter (fun p => if key_eq_dec (field_key incl (fst p)) k then true else false) ps)))
  | Lists ns, VN n => if key_eq_dec Klists k then let m := fold_left N.lor (map (look 0 list_bits) ns) n in VN (if m =? 0 then 0x1110 else m) else v
  | Shuffles ns, VN n => if key_eq_dec Kshuffles k then let m := fold_left N.lor (map (look 0 shuffle_bits) ns) n in VN (if m =? 0 then 0x10 else m) else v
  | Warnings ns, _ => if existsb (fun n => if key_eq_dec (look Kcolorful warning_keys n) k then true else false) ns then VB true else v
  | Out p, _ => if key_eq_dec Kjunit_path k then VS (match p with Some t => t | None => path ++ str ".junit.xml" end) else v
  | Quote q, _ => if key_eq_dec Kquote k then VS (match q with Some n => look [] quotes n | None => [92; 34] end) else v
  | _, _ => v
  end.

(** a decimal digit *)
Definition ten (c : byte) : bool := (48 <=? c) && (c <=? 57).
(** digits of a number that fits an int *)
Definition numeral (d : bytes) : Prop := d <> [] /\ forallb ten d = true /\ number_from 0 d <= 2147483647.
(** not mistaken for a switch *)
Definition undashed (w : bytes) : Prop := hd 0 w <> 45.
(** the text of a pattern *)
Inductive pat_text : field * bytes -> bytes -> Prop :=
| PTAny : forall p, ~ In 61 p -> pat_text (Any, p) p
| PTField : forall f a n p, abbrev (map fst fields) a n -> look Any fields n = f -> ~ In 61 a -> (length a < 64)%nat -> pat_text (f, p) (a ++ [61] ++ p).
(** switches that can be written within an argument *)
Inductive attached : sw -> bytes -> Prop :=
| AOn : forall k c, In (k, c) on_letters -> attached (On k) [c]
| AToggle : forall k c, In (k, c) toggle_letters -> attached (Toggle k) [c]
| ANum : forall k c n d, In (k, c, n) num_letters -> numeral d -> attached (Num k (Some d)) (c :: d).
(** switches at the end of an argument, with arguments following *)
Inductive trailing : sw -> bytes -> list bytes -> Prop :=
| TAttached : forall w t, attached w t -> trailing w t []
| TNumNone : forall k c n, In (k, c, n) num_letters -> trailing (Num k None) [c] []
| TNum : forall k c n d, In (k, c, n) num_letters -> numeral d -> trailing (Num k (Some d)) [c] [d]
| TPats : forall (incl : bool) ps ts, Forall2 pat_text ps ts -> Forall undashed ts -> trailing (Pats incl ps) [if incl then 105 else 101] ts
| TLists : forall ns ts, Forall2 (abbrev (map fst list_bits)) ts ns -> Forall undashed ts -> trailing (Lists ns) [108] ts
| TShuffles : forall ns ts, Forall2 (abbrev (map fst shuffle_bits)) ts ns -> Forall undashed ts -> trailing (Shuffles ns) [115] ts
| TWarnings : forall ns ts, Forall2 (abbrev (map fst warning_keys)) ts ns -> Forall undashed ts -> trailing (Warnings ns) [87] ts
| TOutNone : trailing (Out None) [111] []
| TOut : forall p, undashed p -> (length p <= 255)%nat -> trailing (Out (Some p)) [111] [p]
| TQuoteNone : trailing (Quote None) [83] []
| TQuote : forall q t, abbrev (map fst quotes) t q -> undashed t -> trailing (Quote (Some q)) [83] [t].
(** command lines: arguments beginning with a dash, with switches one after the other, and the arguments of the last of them *)
Inductive written : list sw -> list bytes -> Prop :=
| WNil : written [] []
| WGroup : forall ws ts last t args sws rest, Forall2 attached ws ts -> trailing last t args -> written sws rest ->
    written (ws ++ last :: sws) ((45 :: concat ts ++ t) :: args ++ rest).
(** settings hold values of their kind, arrays at most 127 entries *)
Definition sane_value (d v : value) : Prop := match d, v with VB _, VB _ => True | VN _, VN _ => True | VS _, VS _ => True | VL _, VL l => (length l <= 127)%nat | _, _ => False end.
Definition sane (s : settings) : Prop := forall k, sane_value (defaults k) (s k).
(** running the loop of parse to its end *)
Definition runs (path : bytes) (j : bytes) (rest : list bytes) (s : settings) (o : outcome) : Prop := exists fuel, loop path fuel j rest s = Some o.
(** an argument list that cannot be taken for arguments of an earlier switch *)
Definition dashed (args : list bytes) : Prop := match args with [] => True | a :: _ => exists r, a = 45 :: r end.
(** the settings before any switch *)
Definition initial : list (key * value) :=
  [(Kcolorful, VB true); (Kprogressing, VB true); (Kmemory_check, VB true); (Konly_last_failed, VB false); (Kcontinue_assert, VB false); (Kdebugger_trap, VB false); (Kexit_with_fails, VB false);
   (Kexception, VB false); (Kuncaught, VB false); (Kleak, VB false); (Kviolate, VB false); (Kdouble_free, VB false); (Kasymmetric_free, VB false);
   (Kbreak_after_fails, VN 0); (Krun_rounds, VN 1); (Kfold_json, VN 5); (Kverbose, VN 4); (Kshuffles, VN 0); (Klists, VN 0); (Kquote, VS []); (Kjunit_path, VS []);
   (Kincludes, VL []); (Kfile_includes, VL []); (Ksuite_includes, VL []); (Kcase_includes, VL []); (Ktags_includes, VL []);
   (Kexcludes, VL []); (Kfile_excludes, VL []); (Ksuite_excludes, VL []); (Kcase_excludes, VL []); (Ktags_excludes, VL [])].
(** the letters that mean something *)
Definition letters : bytes := str "bcCdefFilmoprsSvxWh?".
(** switches with words, and their words *)
Definition word_letters : list (byte * list bytes) := [(108, map fst list_bits); (115, map fst shuffle_bits); (87, map fst warning_keys)].
