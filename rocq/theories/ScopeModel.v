(** Model of the scope of stubs, mocks and DNS entries over a whole run: to which list h2_runner::stub, mock and
    h2_dns::setaddrinfo add them (source/core/h2_runner.cpp:180-201, source/net/h2_dns.cpp:137-139), and when these lists
    are emptied (source/core/h2_case.cpp:16-24, source/core/h2_suite.cpp:18-25, source/core/h2_runner.cpp:174-175), along
    the order of events of h2_runner::enumerate and main (source/core/h2_runner.cpp:46-61, 131-177).
    User code is an arbitrary list of actions at every place where the runner calls it. *)
From Coq Require Import List NArith Bool Arith.
Import ListNotations.
Local Open Scope N_scope.

(** what can be installed (h2_runner.cpp:180-201, h2_dns.cpp:115-139) *)
Inductive kind := KStub | KMock | KDns.
(** an item: its kind and the function (or domain) concerned (h2_runner.cpp:180-201, h2_dns.cpp:115-139) *)
Record item := mkitem { i_kind : kind; i_what : N }.
(** places where user code runs, with round, suite and case (h2_runner.cpp:54-58, 131, 141, 152-154, 163, 172;
    h2_suite.cpp:29, 38) *)
Inductive place :=
| PGlobalSetup | PGlobalCleanup
| PEnumSuiteSetup (s : N) | PEnumBody (s : N) | PEnumSuiteCleanup (s : N)
| PSuiteSetup (n : nat) (s : N) | PSuiteCleanup (n : nat) (s : N)
| PCaseSetup (n : nat) (s c : N) | PBody (n : nat) (s c : N) | PCaseCleanup (n : nat) (s c : N).
(** what user code can do: install something; UNSTUB a function (h2_runner.cpp:188-194) *)
Inductive action := Make (i : item) | Unstub (f : N).
(** the lists an item can be in (h2_test.hpp:24-26, h2_runner.hpp:9-10); ONone: DNS entries set outside any case *)
Inductive owner := OCase (c : N) | OSuite (s : N) | ORunner | ONone.
(** an item that is in force, its owner and where it came from (the lists of h2_case.hpp, h2_suite.hpp and h2_runner.hpp) *)
Record live := mklive { l_item : item; l_owner : owner; l_origin : place }.
(** current_case, current_suite (h2_runner.hpp:4-5) and what is in force *)
Record sc := mksc { cur_case : option N; cur_suite : option N; lives : list live }.

(** where a new item goes (h2_runner.cpp:183-185, 198-200; h2_dns.cpp:138-139) *)
Definition owner_of (x : sc) (k : kind) : owner :=
  match cur_case x with
  | Some c => OCase c
  | None => match k with
            | KDns => ONone
            | _ => match cur_suite x with Some s => OSuite s | None => ORunner end
            end
  end.
(** equality of owners (identity of the list head) (h2_stubs.cpp:53, h2_mocks.cpp:9, h2_dns.cpp:106) *)
Definition owner_eqb (a b : owner) : bool :=
  match a, b with
  | OCase c, OCase d => c =? d | OSuite s, OSuite t => s =? t | ORunner, ORunner => true | ONone, ONone => true | _, _ => false
  end.
(** kind test (the separate lists stubs, mocks and dnses, h2_case.hpp) *)
Definition kind_eqb (a b : kind) : bool := match a, b with KStub, KStub | KMock, KMock | KDns, KDns => true | _, _ => false end.
(** one action of user code at a place (h2_runner.cpp:180-201) *)
Definition act (p : place) (x : sc) (a : action) : sc :=
  match a with
  | Make i => mksc (cur_case x) (cur_suite x) (mklive i (owner_of x (i_kind i)) p :: lives x)
  | Unstub f => mksc (cur_case x) (cur_suite x)
      (filter (fun l => negb (kind_eqb (i_kind (l_item l)) KStub && (i_what (l_item l) =? f) && owner_eqb (l_owner l) (owner_of x KStub))) (lives x))
  end.
(** what the runner does (h2_runner.cpp:117-178) *)
Inductive event := ESuite (s : N) | ECase (c : N) | EUser (p : place) | EClearCase (c : N) | EClearSuite (s : N) | EClearRunner.
(** one event; [code] is the user's program (h2_runner.cpp:139, 149, 180-201; h2_case.cpp:16-24; h2_suite.cpp:1-25) *)
Definition step (code : place -> list action) (x : sc) (e : event) : sc :=
  match e with
  | ESuite s => mksc (cur_case x) (Some s) (lives x)                                       (* h2_runner.cpp:139 *)
  | ECase c => mksc (Some c) (cur_suite x) (lives x)                                       (* h2_runner.cpp:149 *)
  | EUser p => fold_left (act p) (code p) x
  | EClearCase c => mksc (cur_case x) (cur_suite x) (filter (fun l => negb (owner_eqb (l_owner l) (OCase c))) (lives x))   (* h2_case.cpp:20-22 *)
  | EClearSuite s => mksc (cur_case x) (cur_suite x)
      (filter (fun l => negb (owner_eqb (l_owner l) (OSuite s) && negb (kind_eqb (i_kind (l_item l)) KDns))) (lives x))    (* h2_suite.cpp:21-22 *)
  | EClearRunner => mksc (cur_case x) (cur_suite x)
      (filter (fun l => negb (owner_eqb (l_owner l) ORunner && negb (kind_eqb (i_kind (l_item l)) KDns))) (lives x))       (* h2_runner.cpp:174-175 *)
  end.
(** a run of events (h2_runner.cpp:117-178) *)
Definition exec (code : place -> list action) (x : sc) (es : list event) : sc := fold_left (step code) es x.

(** a case in a round; [true] = it is executed (h2_runner.cpp:149-160) *)
Definition case_events (n : nat) (s : N) (x : N * bool) : list event :=
  ECase (fst x) :: if snd x then [EUser (PCaseSetup n s (fst x)); EUser (PBody n s (fst x)); EClearCase (fst x); EUser (PCaseCleanup n s (fst x))] else [].
(** a suite in a round (h2_runner.cpp:138-166) *)
Definition suite_events (n : nat) (x : N * list (N * bool)) : list event :=
  ESuite (fst x) :: EUser (PSuiteSetup n (fst x)) :: flat_map (case_events n (fst x)) (snd x) ++ [EClearSuite (fst x); EUser (PSuiteCleanup n (fst x))].
(** h2_runner::enumerate (h2_runner.cpp:50-59) *)
Definition enum_events (suites : list N) : list event :=
  flat_map (fun s => [EUser (PEnumSuiteSetup s); EUser (PEnumBody s); EClearSuite s; EUser (PEnumSuiteCleanup s)]) suites.
(** h2_runner::main (h2_runner.cpp:131-176); rounds: for each round the suites with their cases in order *)
Definition main_events (suites : list N) (rounds : list (list (N * list (N * bool)))) : list event :=
  EUser PGlobalSetup :: enum_events suites ++
  flat_map (fun nr => flat_map (suite_events (fst nr)) (snd nr)) (combine (seq 0 (length rounds)) rounds) ++
  [EUser PGlobalCleanup; EClearRunner].
(** the state at the start (h2_runner.hpp:4-10) *)
Definition sc0 : sc := mksc None None [].
