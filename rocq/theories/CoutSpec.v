(** What a test with blocks that judge output is expected to find. *)
From Coq Require Import List NArith ZArith Bool Arith.
From Verif Require Import Base StdioModel StdioSpec CoutModel.
Import ListNotations.

(** the calls among the items of a block *)
Fixpoint calls_of (l : list item) : list op :=
  match l with Do o :: r => o :: calls_of r | _ :: r => calls_of r | [] => [] end.
(** a block without blocks inside; calls are of the user *)
Definition simple (i : item) : Prop :=
  match i with Do o => plain o /\ sound o | Check _ _ => True | Cout _ _ _ _ => False end.
Definition flat (i : item) : Prop :=
  match i with Do o => plain o /\ sound o | Check _ _ => True | Cout _ _ _ body => Forall simple body end.
(** the verdicts in the order in which they fall: of each assertion as it says, of each block the matcher's verdict on what
    the calls in it say on the channels selected, up to the first NUL *)
Inductive verdicts : list item -> list (bool * report) -> Prop :=
| V_nil : verdicts [] []
| V_do o l vs : verdicts l vs -> verdicts (Do o :: l) vs
| V_check ok place l vs : verdicts l vs -> verdicts (Check ok place :: l) ((ok, RCheck place) :: vs)
| V_cout judge type place body l ws vs said text :
    verdicts body ws -> says_all (selects type) (calls_of body) said -> cut said text -> verdicts l vs ->
    verdicts (Cout judge type place body :: l) (ws ++ (judge text, RCout place text) :: vs).
(** the reports of the verdicts that are bad *)
Definition bad (vs : list (bool * report)) : list report := map snd (filter (fun v => negb (fst v)) vs).
(** how many verdicts there are up to the first bad one *)
Fixpoint until (vs : list (bool * report)) : nat :=
  match vs with [] => 0 | (true, _) :: r => 1 + until r | (false, _) :: _ => 1 end.
