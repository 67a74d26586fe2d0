(** How the members of two objects are put side by side in a diff: by key, else the most alike of those left, else as they come. *)
From Coq Require Import List NArith ZArith QArith Bool Arith.
From Verif Require Import Base FilterModel StrModel DiffModel DiffSpec JsonModel PrintModel PrintSpec.
Import ListNotations.
Local Open Scope Q_scope.

(** a member: key and value *)
Notation member num := (bytes * value num)%type.
(** the member at the split of [pre ++ a :: post] is the favourite of [e]: above 1/5, above all in front, not below any behind *)
Definition favourite {X} (like : X -> X -> Q) (e : X) (pre : list X) (a : X) (post : list X) : Prop :=
  1 # 5 < like e a /\ Forall (fun b => like e b < like e a) pre /\ Forall (fun b => like e b <= like e a) post.
(** in turn, each expected one takes its favourite of those left, if there is one *)
Inductive matched {X} (like : X -> X -> Q) : list X -> list X -> list (X * X) -> list X -> list X -> Prop :=
| M_done al : matched like [] al [] [] al
| M_pair e es pre a post ps es' al' : favourite like e pre a post -> matched like es (pre ++ post) ps es' al' -> matched like (e :: es) (pre ++ a :: post) ((e, a) :: ps) es' al'
| M_none e es al ps es' al' : Forall (fun a => like e a <= 1 # 5) al -> matched like es al ps es' al' -> matched like (e :: es) al ps (e :: es') al'.
(** no member of [m] has the key of [p] *)
Definition lonely {num} (cl : bool) (m : list (member num)) (p : member num) : Prop := ~ In (fold_str cl (fst p)) (map (fun q => fold_str cl (fst q)) m).
(** [r] is what [P] leaves of [l], in order *)
Inductive kept {X} (P : X -> Prop) : list X -> list X -> Prop :=
| K_nil : kept P [] []
| K_keep x l r : P x -> kept P l r -> kept P (x :: l) (x :: r)
| K_drop x l r : ~ P x -> kept P l r -> kept P (x :: l) r.
(** a row of the diff: both members, and whether they are shown as unrelated *)
Definition shares_row {num} (show : num -> bytes) (ch : list dual) (p q : member num) (unrelated : bool) : Prop :=
  exists h l, In (Dual h l) ch /\ apart h = unrelated /\ left_of show (Dual h l) (fst p) (snd p) /\ right_of show (Dual h l) (fst q) (snd q).
(** neither an array nor an object *)
Definition leaf {num} (v : value num) : Prop := (forall l, v <> Arr l) /\ (forall l, v <> Obj l).
(** what a leaf is compared by: the text of a string or pattern; numbers, booleans and null have none *)
Definition leaf_text {num} (v : value num) : bytes := match v with Str s => s | Pat s => s | _ => [] end.
(** a text that ends at no NUL and is of no more than 2^31 characters *)
Definition modest (s : bytes) : Prop := ~ In 0%N s /\ (N.of_nat (length s) < 2 ^ 31)%N.
(** all texts and keys of a value are modest *)
Inductive modest_value {num} : value num -> Prop :=
| Mo_leaf v : leaf v -> modest (leaf_text v) -> modest_value v
| Mo_arr l : Forall modest_value l -> modest_value (Arr l)
| Mo_obj l : Forall (fun p => modest (fst p) /\ modest_value (snd p)) l -> modest_value (Obj l).
(** how alike two texts are: 1 less the edits per mean length *)
Definition closeness (s t : bytes) (q : Q) : Prop :=
  (s = [] /\ t = [] /\ q == 1) \/
  ((s <> [] \/ t <> []) /\ exists d, min_edits s t d /\ q == 1 - inject_Z (Z.of_nat d) * 2 / inject_Z (Z.of_nat (length s + length t))).
