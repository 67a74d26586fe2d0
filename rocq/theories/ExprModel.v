(** Model of tinyexpr (source/json/h2_tinyexpr.cpp:1-286): arithmetic expressions in JSON.

    Numbers are abstract: [alg] gives the value of a literal (strtod) and the functions.  The tokens of the whole text are listed
    first (the code fetches them one by one; after an error token it fetches no more).  The recursive descent is one function of
    a job and a number of nested calls; running out of calls is its own result.  An error in the code sets the type to TOK_ERROR,
    which no function accepts or overwrites, so that compile returns null: here the result Bad is handed through. *)
From Coq Require Import List NArith Bool Arith.
From Verif Require Import Base StrModel.
Import ListNotations.
Local Open Scope N_scope.

(** values: strtod of a literal, functions of no, one and two parameters (h2_tinyexpr.cpp:88-124, 139) *)
Record alg := { R : Type; lit : bytes -> R; app0 : bytes -> R; app1 : bytes -> R -> R; app2 : bytes -> R -> R -> R }.
(** function_spec (h2_tinyexpr.cpp:12-16, 88-124): name and number of parameters *)
Definition functions : list (bytes * nat) :=
  [(str "+", 2); (str "-", 2); (str "*", 2); (str "/", 2); (str "negate", 1); (str "comma", 2); (str "pi", 0); (str "e", 0); (str "nan", 0); (str "inf", 0); (str "factorial", 1);
   (str "C", 2); (str "P", 2); (str "A", 2); (str "abs", 1); (str "sqrt", 1); (str "ln", 1); (str "log", 1); (str "log10", 1); (str "log2", 1); (str "floor", 1); (str "ceil", 1);
   (str "fmod", 2); (str "pow", 2); (str "exp", 1); (str "cos", 1); (str "acos", 1); (str "cosh", 1); (str "sin", 1); (str "asin", 1); (str "sinh", 1); (str "tan", 1); (str "atan", 1);
   (str "atan2", 2); (str "tanh", 1)]%nat.
(** get_function (h2_tinyexpr.cpp:86, 125-129) *)
Definition get_function (name : bytes) : option nat := option_map snd (find (fun p => bytes_eqb name (fst p)) functions).
(** token types (h2_tinyexpr.cpp:43); [TMul f] = TOK_MMD with its function *)
Inductive token := TNum (s : bytes) | TFun (name : bytes) (arity : nat) | TAdd | TSub | TMul (f : bytes) | TPow | TFac | TOpen | TClose | TComma | TError.
(** isdigit in the C locale (h2_tinyexpr.cpp:138) *)
Definition isdigit (c : byte) : bool := (48 <=? c) && (c <=? 57).
(** isalpha in the C locale (h2_tinyexpr.cpp:142) *)
Definition isalpha (c : byte) : bool := ((65 <=? c) && (c <=? 90)) || ((97 <=? c) && (c <=? 122)).
(** hexadecimal digits of strtod, C locale (h2_tinyexpr.cpp:139) *)
Definition ishex (c : byte) : bool := isdigit c || ((65 <=? c) && (c <=? 70)) || ((97 <=? c) && (c <=? 102)).
(** letters of a name (h2_tinyexpr.cpp:144) *)
Definition isword (c : byte) : bool := isalpha c || isdigit c || (c =? 95).
(** the longest beginning of characters of a kind (the loop at h2_tinyexpr.cpp:144; strtod at 139) *)
Fixpoint take_while (f : byte -> bool) (s : bytes) : bytes := match s with c :: r => if f c then c :: take_while f r else [] | [] => [] end.
(** the exponent part of a floating literal: e or p, a sign, digits - or nothing (strtod, h2_tinyexpr.cpp:139) *)
Definition exponent (mark : byte -> bool) (s : bytes) : bytes :=
  match s with
  | c :: r =>
      if mark c
      then match r with
           | g :: r' => if (g =? 43) || (g =? 45) then match take_while isdigit r' with [] => [] | d => c :: g :: d end
                        else match take_while isdigit r with [] => [] | d => c :: d end
           | [] => []
           end
      else []
  | [] => []
  end.
(** digits with at most one point, at least one digit, an exponent (strtod in the C locale, h2_tinyexpr.cpp:139) *)
Definition mantissa (f : byte -> bool) (mark : byte -> bool) (s : bytes) : bytes :=
  let a := take_while f s in
  match skipn (length a) s with
  | 46 :: r => let b := take_while f r in
               match a, b with [], [] => [] | _, _ => a ++ [46] ++ b ++ exponent mark (skipn (length b) r) end
  | r => match a with [] => [] | _ => a ++ exponent mark r end
  end.
(** the text strtod reads from a digit or point (h2_tinyexpr.cpp:139) *)
Definition literal (s : bytes) : bytes :=
  match s with
  | 48 :: x :: r => if (x =? 120) || (x =? 88)
                    then match mantissa ishex (fun c => (c =? 112) || (c =? 80)) r with [] => [48] | h => 48 :: x :: h end
                    else mantissa isdigit (fun c => (c =? 101) || (c =? 69)) s
  | _ => mantissa isdigit (fun c => (c =? 101) || (c =? 69)) s
  end.
(** the operator characters (h2_tinyexpr.cpp:149-163); None = a blank *)
Definition operator (c : byte) : option token :=
  if c =? 43 then Some TAdd else if c =? 45 then Some TSub else if c =? 42 then Some (TMul (str "*")) else if c =? 47 then Some (TMul (str "/"))
  else if c =? 37 then Some (TMul (str "fmod")) else if c =? 94 then Some TPow else if c =? 33 then Some TFac else if c =? 40 then Some TOpen
  else if c =? 41 then Some TClose else if c =? 44 then Some TComma else if (c =? 32) || (c =? 9) then None else Some TError.
(** lexical_token (h2_tinyexpr.cpp:132-167) until the end or an error; [skip] = characters of the last token still to pass.
    A point without digits is a number token that does not advance: it comes again and again; two of them are listed (no function
    of the parser accepts a number behind a number). *)
Fixpoint lex (skip : nat) (s : bytes) : list token :=
  match s with
  | [] => []
  | c :: r =>
      match skip with
      | S k => lex k r
      | O =>
          if isdigit c || (c =? 46)
          then match literal s with
               | [] => [TNum []; TNum []]
               | l => TNum l :: lex (length l - 1) r
               end
          else if isalpha c
          then let w := take_while isword s in
               match get_function w with Some n => TFun w n :: lex (length w - 1) r | None => [TError] end
          else match operator c with Some TError => [TError] | Some t => t :: lex 0 r | None => lex 0 r end
      end
  end.

(** syntax_tree (h2_tinyexpr.cpp:18-41) *)
Inductive tree := Lit (s : bytes) | App0 (f : bytes) | App1 (f : bytes) (a : tree) | App2 (f : bytes) (a b : tree).
(** syntax_tree::evaluate (h2_tinyexpr.cpp:29-40) *)
Fixpoint eval (A : alg) (t : tree) : R A :=
  match t with Lit s => lit A s | App0 f => app0 A f | App1 f a => app1 A f (eval A a) | App2 f a b => app2 A f (eval A a) (eval A b) end.
(** the parser functions (h2_tinyexpr.cpp:169-275); their loops with the tree so far; JArgs = the loop over arguments *)
Inductive job := JBase | JFac | JFacLoop (t : tree) | JPower | JFactor | JFactorLoop (t : tree) | JTerm | JTermLoop (t : tree) | JExpr | JExprLoop (t : tree) | JList | JListLoop (t : tree)
| JArgs (f : bytes) (arity : nat) (args : list tree).
(** what a parser function leaves (h2_tinyexpr.cpp:44-49): a tree and the tokens behind it; TOK_ERROR; out of calls *)
Inductive res := Ok (t : tree) (ts : list token) | Bad | Fuel.
(** the sign loop of power (h2_tinyexpr.cpp:224-228) *)
Fixpoint signs (neg : bool) (ts : list token) : bool * list token :=
  match ts with TAdd :: r => signs neg r | TSub :: r => signs (negb neg) r | _ => (neg, ts) end.
(** the tree of a function with its arguments (h2_tinyexpr.cpp:181, 198); the table has no function of three or four *)
Definition apply_fun (f : bytes) (args : list tree) : option tree :=
  match args with [] => Some (App0 f) | [a] => Some (App1 f a) | [a; b] => Some (App2 f a b) | _ => None end.
(** base .. list (h2_tinyexpr.cpp:169-275) *)
Fixpoint parse (fuel : nat) (j : job) (ts : list token) : res :=
  match fuel with
  | O => Fuel
  | S f =>
      let next (r : res) (k : tree -> list token -> res) : res := match r with Ok t q => k t q | Bad => Bad | Fuel => Fuel end in
      match j with
      | JBase =>
          match ts with
          | TNum s :: r => Ok (Lit s) r
          | TOpen :: r => next (parse f JList r) (fun t q => match q with TClose :: q' => Ok t q' | _ => Bad end)
          | TFun n O :: r => match r with TOpen :: TClose :: q => Ok (App0 n) q | TOpen :: _ => Bad | _ => Ok (App0 n) r end
          | TFun n 1 :: r => next (parse f JPower r) (fun t q => Ok (App1 n t) q)
          | TFun n k :: r => match r with TOpen :: q => parse f (JArgs n k []) q | _ => Bad end
          | _ => Bad
          end
      | JArgs n k args =>
          next (parse f JExpr ts) (fun t q =>
            let args' := args ++ [t] in
            match q with
            | TComma :: q' => if (length args' <? 4)%nat then parse f (JArgs n k args') q' else Bad
            | TClose :: q' => if (length args' =? k)%nat then match apply_fun n args' with Some t' => Ok t' q' | None => Bad end else Bad
            | _ => Bad
            end)
      | JFac => next (parse f JBase ts) (fun t q => parse f (JFacLoop t) q)
      | JFacLoop t => match ts with TFac :: q => parse f (JFacLoop (App1 (str "factorial") t)) q | _ => Ok t ts end
      | JPower => let (neg, q) := signs false ts in next (parse f JFac q) (fun t q' => Ok (if neg then App1 (str "negate") t else t) q')
      | JFactor => next (parse f JPower ts) (fun t q => parse f (JFactorLoop t) q)
      | JFactorLoop t => match ts with TPow :: q => next (parse f JPower q) (fun b q' => parse f (JFactorLoop (App2 (str "pow") t b)) q') | _ => Ok t ts end
      | JTerm => next (parse f JFactor ts) (fun t q => parse f (JTermLoop t) q)
      | JTermLoop t => match ts with TMul o :: q => next (parse f JFactor q) (fun b q' => parse f (JTermLoop (App2 o t b)) q') | _ => Ok t ts end
      | JExpr => next (parse f JTerm ts) (fun t q => parse f (JExprLoop t) q)
      | JExprLoop t =>
          match ts with
          | TAdd :: q => next (parse f JTerm q) (fun b q' => parse f (JExprLoop (App2 (str "+") t b)) q')
          | TSub :: q => next (parse f JTerm q) (fun b q' => parse f (JExprLoop (App2 (str "-") t b)) q')
          | _ => Ok t ts
          end
      | JList => next (parse f JExpr ts) (fun t q => parse f (JListLoop t) q)
      | JListLoop t => match ts with TComma :: q => next (parse f JExpr q) (fun b q' => parse f (JListLoop (App2 (str "comma") t b)) q') | _ => Ok t ts end
      end
  end.
(** nested calls that suffice (not in the code; C41_terminates) (bounds the recursion of h2_tinyexpr.cpp:169-275) *)
Definition calls (ts : list token) : nat := (10 * S (length ts))%nat.
(** compile (h2_tinyexpr.cpp:277-285): None = null *)
Definition compile (s : bytes) : option tree :=
  match parse (calls (lex 0 s)) JList (lex 0 s) with Ok t [] => Some t | _ => None end.
(** evaluate (h2_tinyexpr.cpp:3-10) *)
Definition evaluate (A : alg) (s : bytes) : option (R A) := option_map (eval A) (compile s).

(** _factorial (h2_tinyexpr.cpp:62-68) of a number that is an integer: unsigned long arithmetic *)
Fixpoint factorial_loop (k : nat) (i result : N) : N := match k with O => result | S k' => factorial_loop k' (i + 1) (result * i mod 2 ^ 64) end.
(** result of _factorial (h2_tinyexpr.cpp:65-67) before the conversion to double *)
Definition factorial_ul (n : N) : N := factorial_loop (N.to_nat n) 1 1.
(** Pnm (h2_tinyexpr.cpp:69-75) of integers *)
Definition pnm_ul (n m : N) : N := factorial_loop (N.to_nat (N.min n m)) (N.max n m - N.min n m + 1) 1.
