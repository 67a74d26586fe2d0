(** C72: what follows the first line of a failed string comparison. *)
From Coq Require Import List NArith Bool Arith Lia.
From Verif Require Import Base DiffSpec LineModel LineSpec StrdiffModel StrdiffSpec StrdiffProofs.
Import ListNotations.
Local Open Scope N_scope.

(** if one of the texts is wider than 8 columns, or at verbosity 5: rows of both texts in turn, each titled and as wide as the console;
    the rows hold the characters of the text in order, coloured exactly where they do not belong to a longest common subsequence (a
    space is a gray dot if there are colours) *)
Theorem C72_compare : forall verbose cf W caseless ce ca, Forall good_char ce -> Forall good_char ca -> (10 <= W)%nat -> N.of_nat (Nat.min (length ce) (length ca)) < 2 ^ 24 ->
  if (5 <=? verbose) || (8 <? list_sum (map cellw ce))%nat || (8 <? list_sum (map cellw ca))%nat then
    exists l1 l2 te ta us ds pe pa,
      strcmp_detail verbose cf W caseless (concat ce) (concat ca) = Some (weave (map (app te) us) (map (app ta) ds)) /\
      titled te (str "expect") (str "green") /\ titled ta (str "actual") (str "red") /\
      Forall2 (filled (W - 8)) us pe /\ Forall2 (filled (W - 8)) ds pa /\ needed (W - 8) pe /\ needed (W - 8) pa /\
      concat (map seen pe) = diff_cells cf (str "green") l1 ce /\ concat (map seen pa) = diff_cells cf (str "red") l2 ca /\
      length l1 = length ce /\ length l2 = length ca /\ Forall2 (fun a b => fold_str caseless a = fold_str caseless b) (select l1 ce) (select l2 ca) /\
      (forall u v, subseq u ce -> subseq v ca -> Forall2 (fun a b => fold_str caseless a = fold_str caseless b) u v -> (length u <= length (select l1 ce))%nat)
  else strcmp_detail verbose cf W caseless (concat ce) (concat ca) = Some [].
Proof. exact strcmp_detail_ok. Qed.
Print Assumptions C72_compare.
(** a text not found in, or not the beginning or end of, another: if one is wider than 16 columns both are shown in full, titled in their
    first row *)
Theorem C72_find : forall W ce ca, Forall good_char ce -> Forall good_char ca -> is_style (concat ce) = false -> is_style (concat ca) = false -> (10 <= W)%nat ->
  if (16 <? list_sum (map cellw ce))%nat || (16 <? list_sum (map cellw ca))%nat then
    exists te ta us ds pe pa, strfind_detail W (concat ce) (concat ca) = Some (behind te us ++ behind ta ds) /\
      titled te (str "expect") (str "green") /\ titled ta (str "actual") (str "red") /\
      Forall2 (filled (W - 8)) us pe /\ Forall2 (filled (W - 8)) ds pa /\ needed (W - 8) pe /\ needed (W - 8) pa /\
      concat (map seen pe) = map (fun x => (None, x)) (concat (map (drawn false) ce)) /\ concat (map seen pa) = map (fun x => (None, x)) (concat (map (drawn false) ca)) /\ us <> [] /\ ds <> []
  else strfind_detail W (concat ce) (concat ca) = Some [].
Proof. exact strfind_detail_ok. Qed.
Print Assumptions C72_find.

Definition C72_e : list bytes := map (fun c => [c]) (str "one two") ++ [[10]; [0xe4; 0xb8; 0xad]].
Definition C72_a : list bytes := map (fun c => [c]) (str "one Too") ++ [[0xe4; 0xb8; 0xad]].
Example C72_example : Forall good_char C72_e /\ Forall good_char C72_a /\
  strcmp_detail 4 true 17 false (concat C72_e) (concat C72_a) =
  Some [title_line (str "expect") (str "green") ++ [str "o"; str "n"; str "e"; 27 :: str "{+dark gray}"; dot; 27 :: str "{-dark gray}"; 27 :: str "{green}"; str "t"; 27 :: str "{reset}"; 27 :: str "{green}"; str "w"; 27 :: str "{reset}"; str "o"; 27 :: str "{green}"; str "\"];
        title_line (str "actual") (str "red") ++ [str "o"; str "n"; str "e"; 27 :: str "{+dark gray}"; dot; 27 :: str "{-dark gray}"; 27 :: str "{red}"; str "T"; 27 :: str "{reset}"; str "o"; 27 :: str "{red}"; str "o"; 27 :: str "{reset}"; str " "];
        title_line (str "expect") (str "green") ++ [27 :: str "{green}"; str "n"; 27 :: str "{reset}"; [0xe4; 0xb8; 0xad]; str "      "];
        title_line (str "actual") (str "red") ++ [27 :: str "{reset}"; [0xe4; 0xb8; 0xad]; str "       "]].
Proof.
  assert (G1 : forall b, 0 < b < 192 -> good_char [b]). { intros b H. split; [apply char1; lia|]. split; [intros [K|[]]; lia|cbn; lia]. }
  assert (G3 : good_char [0xe4; 0xb8; 0xad]). { split; [exists 0xe4, [0xb8; 0xad]; repeat split; reflexivity|]. split; [cbn; intuition discriminate|]. intros _. repeat constructor; discriminate. }
  assert (GS : forall s, forallb (fun b => (0 <? b) && (b <? 192)) s = true -> Forall good_char (map (fun c => [c]) s)).
  { intros s H. rewrite forallb_forall in H. apply Forall_forall. intros c C. apply in_map_iff in C. destruct C as (b & <- & B). apply G1. apply H in B. apply andb_prop in B. destruct B as (B1 & B2). apply N.ltb_lt in B1. apply N.ltb_lt in B2. lia. }
  split; [|split; [|vm_compute; reflexivity]]; (apply Forall_app; split; [apply GS; reflexivity|]).
  - apply Forall_cons; [apply G1; lia|]. apply Forall_cons; [exact G3|apply Forall_nil].
  - apply Forall_cons; [exact G3|apply Forall_nil].
Qed.
Example C72_find_example : option_map (map spoken) (strfind_detail 18 (str "needle") (str "a long text without it")) =
  Some [str "expect> needle    "; str "actual> a long tex"; str "        t without "; str "        it        "].
Proof. vm_compute. reflexivity. Qed.

(** with colours a space that differs is not distinguished from a common one *)
Theorem C72_space_refuted : exists e a r1 r2, e <> a /\
  strcmp_detail 4 true 120 false e a = Some [title_line (str "expect") (str "green") ++ r1; title_line (str "actual") (str "red") ++ r2] /\ ~ In (27 :: str "{green}") r1 /\ ~ In (27 :: str "{red}") r2.
Proof.
  exists (str "hello  world"), (str "hello world"). do 2 eexists. split; [discriminate|]. split; [vm_compute; reflexivity|]. split; cbn; intuition discriminate.
Qed.
Print Assumptions C72_space_refuted.
(** a text that begins with ESC and a brace is taken for a style and not shown *)
Theorem C72_escape_refuted : exists e a, is_style e = true /\ option_map (map spoken) (strfind_detail 20 e a) = Some [str "expect>             "; str "actual> short       "].
Proof. exists (27 :: str "{a rather long text}"), (str "short"). split; [reflexivity|vm_compute; reflexivity]. Qed.
Print Assumptions C72_escape_refuted.
