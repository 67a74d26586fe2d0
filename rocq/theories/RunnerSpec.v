(** What the runner properties speak about. *)
From Coq Require Import List ZArith NArith Bool.
From Verif Require Import RunnerModel.
Import ListNotations.
Local Open Scope Z_scope.

Definition stat (k : class) (s : stats) : Z :=
  match k with Passed => passed s | Failed => failed s | Warning => warning s | Todo => todo s
             | Filtered => filtered s | Ignored => ignored s | Listed => 0 end.
Definition class_eqb (a b : class) : bool :=
  match a, b with
  | Passed, Passed | Failed, Failed | Warning, Warning | Todo, Todo | Filtered, Filtered | Ignored, Ignored | Listed, Listed => true
  | _, _ => false end.
(** number of visits of a class *)
Definition count (k : class) (l : list visit) : Z := Z.of_nat (length (filter (fun v => class_eqb (v_class v) k) l)).

(** the cases in the order they come up *)
Definition agenda (o : opts) (order : nat -> list (list case_)) : list (nat * case_) :=
  flat_map (fun round => map (pair round) (concat (order round))) (seq 0 (run_rounds o)).

(** the right treatment of one case *)
Inductive treated (o : opts) (body : oracle) : nat * case_ -> visit -> Prop :=
| t_ignored : forall n c, 0 < break_after_fails o \/ only_last_failed o = true ->
    treated o body (n, c) (mkvisit n (c_id c) false Ignored)
| t_filtered : forall n c, c_filtered c = true -> treated o body (n, c) (mkvisit n (c_id c) false Filtered)
| t_todo : forall n c, c_filtered c = false -> c_todo c = true -> treated o body (n, c) (mkvisit n (c_id c) false Todo)
| t_listed : forall n c, c_filtered c = false -> c_todo c = false -> lists o = true -> treated o body (n, c) (mkvisit n (c_id c) false Listed)
| t_failed : forall n c w, c_filtered c = false -> c_todo c = false -> lists o = false -> body n (c_id c) = (true, w) ->
    treated o body (n, c) (mkvisit n (c_id c) true Failed)
| t_warning : forall n c, c_filtered c = false -> c_todo c = false -> lists o = false -> body n (c_id c) = (false, true) ->
    treated o body (n, c) (mkvisit n (c_id c) true Warning)
| t_passed : forall n c, c_filtered c = false -> c_todo c = false -> lists o = false -> body n (c_id c) = (false, false) ->
    treated o body (n, c) (mkvisit n (c_id c) true Passed).

(** cases that would run if nothing stopped the run, in order *)
Definition eligible (o : opts) (order : nat -> list (list case_)) : list (nat * N) :=
  map (fun x => (fst x, c_id (snd x))) (filter (fun x => negb (c_todo (snd x)) && negb (c_filtered (snd x))) (agenda o order)).
Definition executed (log : list visit) : list (nat * N) := map (fun v => (v_round v, v_case v)) (filter v_executed log).
Definition nfail (body : oracle) (l : list (nat * N)) : Z := Z.of_nat (length (filter (fun x => fst (body (fst x) (snd x))) l)).
