(** What the macros for stubs, mocks, exceptions and names are for: the function they are about, how it is named in reports, and what is put in its place. *)
From Coq Require Import List NArith Arith.
From Verif Require Import Base MacroModel MacroSpec MacroSpec2.
Import ListNotations.
Local Open Scope N_scope.

(** an argument as it is given, and what it means: parentheses around all of it are there only for the commas in it *)
Definition arg : Type := list tok * list tok.
Definition means (x : arg) : Prop := (unwrapped (fst x) /\ snd x = fst x) \/ (text (snd x) /\ fst x = group (snd x)).
Definition as_given (x : arg) : Prop := snd x = fst x.

(** a function, a method of a class, a method of an object's class *)
Inductive place := Function (f : arg) | Method (c m : arg) | ObjectMethod (o : list tok) (c m : arg).
Definition sound (p : place) : Prop := match p with Function f => means f | Method c m => means c /\ means m | ObjectMethod o c m => value o /\ means c /\ means m end.
Definition written (p : place) : list (list tok) := match p with Function f => [fst f] | Method c m => [fst c; fst m] | ObjectMethod o c m => [o; fst c; fst m] end.

(** the pointer to the function with the signature *)
Definition address (c m : arg) : list tok := words (str "&") ++ snd c ++ words (str "::") ++ snd m.
Definition pointer (p : place) (signature : list tok) : list tok :=
  match p with
  | Function f => words (str "h2::h2_fp<") ++ signature ++ words (str ">::get") ++ group (snd f)
  | Method c m => words (str "h2::h2_fp<") ++ listed [snd c; signature] ++ words (str ">::get") ++ group (address c m)
  | ObjectMethod o c m => words (str "h2::h2_fp<") ++ listed [snd c; signature] ++ words (str ">::get") ++ group (listed [words (str "h2::h2_pointer_if") ++ group o; address c m])
  end.
(** its name in reports: as spelled in the program *)
Definition spelled (x : list tok) : list tok := words (str "H2_SPELLED") ++ group x.
Definition naming (p : place) : list tok :=
  match p with Function f => spelled (fst f) | Method c m | ObjectMethod _ c m => spelled (fst c) ++ words (str """::""") ++ spelled (fst m) end.
Definition here : list tok := words (str "H2_FILINE").
(** a record of its own for every place in the program, with the types of class and function *)
Definition kept (kind : bytes) (p : place) (signature : list tok) : list tok :=
  words (str "h2::" ++ kind ++ str "<") ++ listed [words (str "__COUNTER__"); match p with Function _ => words (str "std::false_type") | Method c _ | ObjectMethod _ c _ => snd c end; signature] ++
  words (str ">::I") ++ group (listed [pointer p signature; naming p; here]).
(** a function written in place: for methods the object comes first *)
Definition lambda (p : place) (parameters : list (list tok)) (result : list tok) : list tok :=
  words (str "[]") ++ group (listed (match p with Function _ => parameters | Method c _ | ObjectMethod _ c _ => (snd c ++ words (str "* This")) :: parameters end)) ++ words (str "->") ++ result.
(** what is put in the place of the function *)
Definition stubbed (p : place) (signature destination : list tok) : list tok :=
  match p with
  | Function _ => words (str "h2::h2_runner::stub") ++ group (listed [pointer p signature; words (str "(void*)") ++ group destination; naming p; here])
  | _ => kept (str "h2_stuber") p signature ++ words (str "=") ++ destination
  end.
Definition unstubbed (function : list tok) : list tok := words (str "h2::h2_runner::unstub") ++ group function.
(** an address or a name of a function, whatever its signature *)
Definition plainly (source : list tok) : list tok := words (str "h2::h2_fp<>::get") ++ group source.
(** what catches: the type of what is thrown and what it is compared with *)
Definition catches (type matcher : list tok) : list tok :=
  words (str "for (auto _Q__ = h2::h2_exception::try_catch(); _Q__; h2::h2_exception::check_catch<") ++ type ++ words (str ">") ++ group (listed [matcher; here]) ++ TRp :: words (str "if (!::setjmp(h2::h2_exception::I().catch_hole))").
