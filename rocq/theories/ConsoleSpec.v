(** What the console has to show. *)
From Coq Require Import List NArith ZArith Bool Arith.
From Verif Require Import Base RunnerModel JunitSpec ListingSpec ConsoleModel.
Import ListNotations.
Local Open Scope N_scope.

(** A terminal of unlimited width: finished lines, and the cells of the current one left of the cursor and from the cursor on.  Bytes are cells; an
    erased cell is 0.  Known are line feed, carriage return, and ESC [ 2 K, which erases the line and leaves the cursor where it is. *)
Inductive mode := Plain | Esc | Csi (n : N).
Record terminal := mkterm { done : list bytes; left : bytes; right : bytes; md : mode }.
Fixpoint trim (l : bytes) : bytes := match l with [] => [] | c :: r => match trim r with [] => if c =? 0 then [] else [c] | t => c :: t end end.
Definition type_byte (t : terminal) (c : N) : terminal :=
  match md t with
  | Plain =>
    if c =? 27 then mkterm (done t) (left t) (right t) Esc
    else if c =? 10 then mkterm (done t ++ [trim (left t ++ right t)]) [] [] Plain
    else if c =? 13 then mkterm (done t) [] (left t ++ right t) Plain
    else mkterm (done t) (left t ++ [c]) (tl (right t)) Plain
  | Esc => mkterm (done t) (left t) (right t) (if c =? 91 then Csi 0 else Plain)
  | Csi n =>
    if (48 <=? c) && (c <=? 57) then mkterm (done t) (left t) (right t) (Csi (10 * n + (c - 48)))
    else if (c =? 75) && (n =? 2) then mkterm (done t) (repeat 0 (length (left t))) (repeat 0 (length (right t))) Plain
    else mkterm (done t) (left t) (right t) Plain
  end.
Definition typed (b : bytes) (t : terminal) : terminal := fold_left type_byte b t.
Definition screen (b : bytes) : list bytes := done (typed b (mkterm [] [] [] Plain)).

(** text that moves nothing *)
Definition still (s : bytes) : Prop := Forall (fun c => c <> 0 /\ c <> 10 /\ c <> 13 /\ c <> 27) s.
(** the same with line feeds *)
Definition lines_only (s : bytes) : Prop := Forall (fun c => c <> 0 /\ c <> 13 /\ c <> 27) s.
(** the lines of a text: what is between line feeds *)
Fixpoint lines (s : bytes) : list bytes :=
  match s with
  | [] => [[]]
  | c :: r => if c =? 10 then [] :: lines r else match lines r with [] => [[c]] | x :: y => (c :: x) :: y end
  end.
Definition still_turn (t : turn) : Prop := still (t_name t) /\ still (t_filine t) /\ lines_only (t_out t) /\ match t_details t with Some ds => Forall still ds | None => True end.
Definition still_show (h : show) : Prop := still (h_name h) /\ Forall still_turn (h_turns h).
Definition still_fit (l : look) : Prop := forall b, still b -> still (fit l b).

(** [num]/[den] to [k] decimals, wrong by no more than half of the last *)
Definition approximately (k : nat) (num den : N) (t : bytes) : Prop :=
  exists v a b, t = a ++ str "." ++ b /\ decimal a (v / 10 ^ N.of_nat k) /\ length b = k /\ Forall (fun c => 48 <= c <= 57) b /\
    fold_left (fun a c => 10 * a + (c - 48)) b 0 = v mod 10 ^ N.of_nat k /\
    2 * (v * den) <= 2 * (num * 10 ^ N.of_nat k) + den /\ 2 * (num * 10 ^ N.of_nat k) <= 2 * (v * den) + den.
(** [s] unless exactly one unit *)
Definition s_unless (one : bool) : bytes := if one then [] else str "s".
Definition duration (ms : N) (t : bytes) : Prop :=
  (ms < 100 -> exists d, decimal d ms /\ t = d ++ str " milliseconds") /\
  (100 <= ms < 60000 -> exists x, approximately 1 ms 1000 x /\ t = x ++ str " second" ++ s_unless (ms =? 1000)) /\
  (60000 <= ms < 3600000 -> exists x, approximately 2 ms 60000 x /\ t = x ++ str " minute" ++ s_unless (ms =? 60000)) /\
  (3600000 <= ms -> exists x, approximately 3 ms 3600000 x /\ t = x ++ str " hour" ++ s_unless (ms =? 3600000)).
Definition volume (n : N) (t : bytes) : Prop :=
  (n < 2 ^ 10 -> decimal t n) /\
  (2 ^ 10 <= n < 2 ^ 20 -> exists x, approximately 1 n (2 ^ 10) x /\ t = x ++ str "KB") /\
  (2 ^ 20 <= n < 2 ^ 30 -> exists x, approximately 2 n (2 ^ 20) x /\ t = x ++ str "MB") /\
  (2 ^ 30 <= n -> exists x, approximately 3 n (2 ^ 30) x /\ t = x ++ str "GB").
Definition numbered (n : N) (unit t : bytes) : Prop := exists d, decimal d n /\ t = d ++ str " " ++ plural n unit.

(** The progress shown before the bar of case number [i] *)
Definition percentage (l : look) (i : N) (t : bytes) : Prop :=
  if progressing l then exists d, decimal d (if total l =? 0 then 100 else i * 100 / total l) /\ t = str "[" ++ repeat 32 (3 - length d) ++ d ++ str "%] "
  else t = [].
Definition or_else (a b : bytes) : bytes := match a with [] => b | _ => a end.
Definition bar : bytes := str "┊ ".
Definition titled (suite case_ : bytes) : bytes := bar ++ or_else case_ (str "case") ++ str " " ++ bar ++ or_else suite (str "suite") ++ str " ".
(** how a case is counted *)
Definition class_of (t : turn) : class :=
  if t_ignored t then Ignored else if t_filtered t then Filtered else if t_todo t then Todo else if t_failed t then Failed else if t_warning t then Warning else Passed.
(** which kinds have a line at which verbosity *)
Definition has_line (v : N) (k : class) : bool :=
  match k with Failed => negb (v =? 0) | Warning => 2 <=? v | Passed => (v =? 3) || (5 <=? v) | _ => false end.
Definition status_word (k : class) : bytes := match k with Failed => str "Failed " | Warning => str "Warning" | Passed => str "Passed " | _ => [] end.
(** statistics of a passed case: those that are not zero, with commas between *)
Inductive Listed : list bytes -> bytes -> Prop :=
| L_nil : Listed [] []
| L_one : forall x, Listed [x] x
| L_more : forall x y r t, Listed (y :: r) t -> Listed (x :: y :: r) (x ++ str ", " ++ t).
Definition optional (n : N) (shows : N -> bytes -> Prop) (x : list bytes) : Prop := (n = 0 /\ x = []) \/ (n <> 0 /\ exists t, shows n t /\ x = [t]).
Definition case_figures (t : turn) (x : bytes) : Prop :=
  exists a b c y, optional (t_asserts t) (fun n => numbered n (str "assert")) a /\ optional (t_footprint t) (fun n z => exists w, volume n w /\ z = w ++ str " footprint") b /\
    optional (t_ms t) duration c /\ Listed (a ++ b ++ c) y /\ x = (match y with [] => [] | _ => str "- " ++ y end).
(** what a test wrote, below a line saying that it runs *)
Definition output_lines (l : look) (h : show) (i : N) (t : turn) (ls : list bytes) : Prop :=
  match class_of t with
  | Failed | Warning | Passed =>
    if (verbose l <? 4) || match t_out t with [] => true | _ => false end then ls = []
    else if progressing l then exists p, percentage l i p /\ ls = fit l (p ++ str "Testing" ++ titled (h_name h) (t_name t)) :: lines (t_out t)
    else ls = lines (t_out t)
  | _ => ls = []
  end.
(** the line telling what became of it, and what explains it *)
Definition verdict_lines (l : look) (h : show) (i : N) (t : turn) (ls : list bytes) : Prop :=
  let k := class_of t in
  if has_line (verbose l) k then
    exists p f x, percentage l i p /\ last_part (t_filine t) f /\
      (if (match k with Passed => true | _ => false end) && (5 <=? verbose l) then case_figures t x else x = []) /\
      ls = (p ++ status_word k ++ titled (h_name h) (t_name t) ++ bar ++ f ++ str " " ++ x) ::
           (match t_details t with
            | Some ds => if (match k with Failed => 4 <=? verbose l | Warning => 5 <=? verbose l | _ => false end) then ds ++ [[]] else []
            | None => []
            end)
  else ls = [].
(** lines of the cases, the first being number [i] + 1 *)
Inductive TurnLines (l : look) (h : show) : N -> list turn -> list bytes -> Prop :=
| TL_nil : forall i, TurnLines l h i [] []
| TL_cons : forall i t r a b c, output_lines l h (i + 1) t a -> verdict_lines l h (i + 1) t b -> TurnLines l h (i + 1) r c -> TurnLines l h i (t :: r) (a ++ b ++ c).
(** numbers that are not zero *)
Definition counted (n : Z) (what : bytes) : list (N * bytes) := if (n =? 0)%Z then [] else [(Z.to_N n, what)].
Definition counts_of (st : stats) : list (N * bytes) :=
  counted (passed st) (str "passed") ++ counted (failed st) (str "failed") ++ counted (warning st) (str "warning") ++
  counted (todo st) (str "todo") ++ counted (filtered st) (str "filtered") ++ counted (ignored st) (str "ignored").
Definition then_if (b : bool) (shows : bytes -> Prop) (x : bytes) : Prop := if b then exists t, shows t /\ x = str ", " ++ t else x = [].
(** the line of a suite, with verbosity 9 and nothing included or excluded by name *)
Definition suite_shown (l : look) (h : show) (i : N) (ls : list bytes) : Prop :=
  if (9 <=? verbose l) && negb (narrowed l) then
    exists p y a b c, percentage l i p /\ Joined (counts_of (h_stats h)) y /\
      then_if (negb (h_asserts h =? 0)) (numbered (h_asserts h) (str "assert")) a /\
      then_if (negb (h_footprint h =? 0)) (fun z => exists w, volume (h_footprint h) w /\ z = w ++ str " footprint") b /\
      then_if (2 <=? h_ms h) (duration (h_ms h)) c /\
      ls = [p ++ str "suite " ++ h_name h ++ (if (2 <=? length (counts_of (h_stats h)))%nat then str " (" ++ y ++ str ")" else str " - " ++ y) ++
            (match h_turns h with [] => [] | [_] => str " case" | _ => str " cases" end) ++ a ++ b ++ c]
  else ls = [].
Inductive ShowLines (l : look) : N -> list show -> list bytes -> Prop :=
| SL_nil : forall i, ShowLines l i [] []
| SL_cons : forall i h r a b c, TurnLines l h i (h_turns h) a -> suite_shown l h (i + N.of_nat (length (h_turns h))) b ->
    ShowLines l (i + N.of_nat (length (h_turns h))) r c -> ShowLines l i (h :: r) (a ++ b ++ c).
(** the last line *)
Definition summed_up (l : look) (st : stats) (asserts rounds ms : N) (t : bytes) : Prop :=
  exists others y a c d, 
    others = counted (failed st) (str "failed") ++ counted (warning st) (str "warning") ++ counted (todo st) (str "todo") ++ counted (filtered st) (str "filtered") ++ counted (ignored st) (str "ignored") /\
    Joined ((Z.to_N (passed st), str "passed") :: others) y /\
    (match others with [] => a = y | _ => exists n, decimal n (total l) /\ a = str "(" ++ y ++ str ") " ++ n end) /\
    (exists n r, numbered asserts (str "assert") n /\ then_if (2 <=? rounds) (numbered rounds (str "round")) r /\ c = n ++ r) /\
    duration ms d /\
    t = (if (failed st <=? 0)%Z then str "Success " else str "Failure ") ++ a ++ str " " ++ plural (total l) (str "case") ++ str ", " ++ c ++ str ", " ++ d.

(** how many cases of a list are of a kind *)
Definition of_kind (k : class) (ts : list turn) : nat := length (filter (fun t => match class_of t, k with Passed, Passed | Failed, Failed | Warning, Warning | Todo, Todo | Filtered, Filtered | Ignored, Ignored => true | _, _ => false end) ts).
(** statistics that count these cases *)
Definition tallies (st : stats) (ts : list turn) : Prop :=
  passed st = Z.of_nat (of_kind Passed ts) /\ failed st = Z.of_nat (of_kind Failed ts) /\ warning st = Z.of_nat (of_kind Warning ts) /\
  todo st = Z.of_nat (of_kind Todo ts) /\ filtered st = Z.of_nat (of_kind Filtered ts) /\ ignored st = Z.of_nat (of_kind Ignored ts).
(** all suites of all rounds, in order *)
Definition outings (o : opts) (order : nat -> list ((bytes * bool) * list case_)) : list (nat * ((bytes * bool) * list case_)) :=
  flat_map (fun r => map (pair r) (order r)) (seq 0 (run_rounds o)).
(** case [c] in round [r] as told by [t]: executed unless filtered, to do, or ignored for one of the two reasons there are *)
Definition told (g : given) (o : opts) (body : oracle) (r : nat) (c : case_) (t : turn) : Prop :=
  t_name t = n_name g (c_id c) /\ t_filine t = n_filine g (c_id c) /\ t_out t = n_out g r (c_id c) /\ t_details t = n_details g r (c_id c) /\
  t_asserts t = n_asserts g r (c_id c) /\ t_footprint t = n_footprint g r (c_id c) /\ t_ms t = n_ms g r (c_id c) /\
  match class_of t with
  | Ignored => (0 < break_after_fails o)%Z \/ only_last_failed o = true
  | Filtered => c_filtered c = true
  | Todo => c_filtered c = false /\ c_todo c = true
  | Failed => c_filtered c = false /\ c_todo c = false /\ fst (body r (c_id c)) = true
  | Warning => c_filtered c = false /\ c_todo c = false /\ body r (c_id c) = (false, true)
  | Passed => c_filtered c = false /\ c_todo c = false /\ body r (c_id c) = (false, false)
  | RunnerModel.Listed => False
  end.
Definition still_given (g : given) : Prop :=
  forall i, still (n_name g i) /\ still (n_filine g i) /\ forall r, lines_only (n_out g r i) /\ match n_details g r i with Some ds => Forall still ds | None => True end.
(** a suite of a round as told by [h] *)
Definition show_told (g : given) (o : opts) (body : oracle) (x : nat * ((bytes * bool) * list case_)) (h : show) : Prop :=
  h_name h = fst (fst (snd x)) /\ Forall2 (told g o body (fst x)) (snd (snd x)) (h_turns h) /\ tallies (h_stats h) (h_turns h).
