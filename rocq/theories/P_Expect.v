(** C80: the texts of expectations say what is tested. *)
From Coq Require Import List NArith ZArith Bool Arith.
From Verif Require Import Base StrModel LineSpec MessageSpec FailModel MatcherModel ValueModel ValueSpec ExpectModel ExpectSpec ExpectProofs ExpectProofs2 ExpectProofs3 ExpectProofs4.
Import ListNotations.
Local Open Scope N_scope.

(** the text can be read, and however it is read, it says what the matcher tests *)
Theorem C80_says : forall st (I : leaf -> bool -> bool -> val -> bool), ~ In (str "dark gray") st -> forall m c, readable (c_neg c) (c_ci c) (c_sq c) m ->
  (exists s, reads st Disjunction (ink st (expection false m c)) s) /\
  (forall s v, reads st Disjunction (ink st (expection false m c)) s -> holds I s v = isnull (matches (tested I m) c v)) /\
  behind_line st (expection false m c) = st.
Proof. exact says_ok. Qed.
Print Assumptions C80_says.
Example C80_says_example : let m := XPoly flags0 (XNot (XAnd (XOr (XPoly flags0 (XEq (VInt 5))) (XPoly not_flags (XOrder Less (VInt (-3))))) (XPoly caseless_flags (XAllOf [XPoly flags0 (XText (str "a")); XPoly squash_flags (XNamed (str "Re") (str "b "))])))) in
  readable false false false m /\
  map snd (ink [] (expection false m ctx0)) = str "!((5 or !<-3) and AllOf(~""a"", ~*Re(""b "")))".
Proof. exact says_example. Qed.

(** a text is read in one way only *)
Theorem C80_one_reading : forall st o s s', reads st Disjunction o s -> reads st Disjunction o s' -> s = s'.
Proof. exact reading_one. Qed.
Print Assumptions C80_one_reading.
(** there are texts to read: C80_says_example; here one with its reading *)
Example C80_one_reading_example : reads [] Disjunction (letters [] (str "5") ++ letters [] (str " or ") ++ letters [] (str "!NULL")) (Either (Leaf false false (LNumber 5)) (No (Leaf false false LNull))).
Proof.
  apply r_or; [apply r_conj, r_alone, r_simple, (s_number [] false false 5 (str "5"))|apply r_alone, r_simple, (s_null [] true)]. left. split; [discriminate|]. split; [repeat constructor; discriminate|]. split; [reflexivity|]. split; discriminate.
Qed.

(** matchers with the same text give the same verdict *)
Theorem C80_same : forall st (I : leaf -> bool -> bool -> val -> bool) m n c d v, ~ In (str "dark gray") st -> readable (c_neg c) (c_ci c) (c_sq c) m -> readable (c_neg d) (c_ci d) (c_sq d) n ->
  ink st (expection false m c) = ink st (expection false n d) -> isnull (matches (tested I m) c v) = isnull (matches (tested I n) d v).
Proof. exact same_ok. Qed.
Print Assumptions C80_same.
Example C80_same_example : let m := XAnd (XAnd (XEq (VInt 1)) XAny) (XOrder Less (VInt 3)) in let n := XCond false XNull (XAnd (XNot (XNot (XAnd (XEq (VInt 1)) XAny))) (XPoly flags0 (XOrder Less (VInt 3)))) in
  readable false false false m /\ readable false false false n /\ ink [] (expection false m ctx0) = ink [] (expection false n ctx0) /\ map snd (ink [] (expection false m ctx0)) = str "1 and Any and <3" /\
  map snd (ink [] (expection false (XAnd (XEq (VInt 1)) (XAnd XAny (XOrder Less (VInt 3)))) ctx0)) = str "1 and (Any and <3)".
Proof. exact same_example. Qed.

(** matchers of the elements of a container: their name, what is expected of an element, how often *)
Theorem C80_elements : forall st (I : leaf -> bool -> bool -> val -> bool) name m c, ~ In (str "dark gray") st -> ~ In 27 name -> c_ci c = false -> readable false false (c_sq c) m ->
  exists o t, ink st (expection false (XElements name m) c) =
      letters st (mark (c_neg c) not_mark ++ mark (c_sq c) (str "*") ++ name) ++ grayed st (str "(") ++ o ++ grayed st (str ")") ++ (if (c_times c =? 1)%Z then [] else letters st (str " * " ++ t)) /\
    whole (c_times c) t /\ (exists s, reads st Disjunction o s) /\ (forall s v, reads st Disjunction o s -> holds I s v = isnull (matches (tested I m) (inner c) v)) /\
    behind_line st (expection false (XElements name m) c) = st.
Proof. exact elements_ok. Qed.
Print Assumptions C80_elements.
(** matchers for each element of a container *)
Theorem C80_list : forall st (I : leaf -> bool -> bool -> val -> bool) l c, ~ In (str "dark gray") st -> Forall (readable false (c_ci c) (c_sq c)) l ->
  exists o ss, ink st (expection false (XListOf l) c) = letters st (mark (c_neg c) not_mark ++ mark (c_sq c) (str "*")) ++ grayed st (str "[") ++ o ++ grayed st (str "]") /\
    reads_list st o ss /\ (forall v, map (fun s => holds I s v) ss = map (fun m => isnull (matches (tested I m) (inner c) v)) l) /\ behind_line st (expection false (XListOf l) c) = st.
Proof. exact items_ok. Qed.
Print Assumptions C80_list.
Example C80_elements_example : let m := XPoly (apply_op flags0 (OpTimes 3)) (XElements (str "Has") (XPoly not_flags (XEq (VInt 7)))) in
  readable false false false (XPoly not_flags (XEq (VInt 7))) /\ map snd (ink [] (expection false m ctx0)) = str "Has(≠7) * 3" /\
  map snd (ink [] (expection false (XPoly not_flags (XListOf [XEq (VInt 1); XOrder Greater (VInt 2)])) ctx0)) = str "![1, >2]".
Proof. exact elements_example. Qed.

(** Has of a key and a value, HasKey, HasValue: the parts between the parentheses say what is tested of keys and of values *)
Theorem C80_keyed : forall st (I : leaf -> bool -> bool -> val -> bool) h k v c, ~ In (str "dark gray") st -> readable false (c_ci c) (c_sq c) k -> readable false (c_ci c) (c_sq c) v ->
  exists ok ov t, ink st (expection false (XHas2 h k v) c) =
      letters st (mark (c_neg c) not_mark ++ mark (c_sq c) (str "*") ++ has_title h) ++ grayed st (str "(") ++ has_parts st h ok ov ++ grayed st (str ")") ++ (if (c_times c =? 1)%Z then [] else letters st (str " * " ++ t)) /\
    whole (c_times c) t /\
    (exists s, reads st Disjunction ok s) /\ (forall s x, reads st Disjunction ok s -> holds I s x = isnull (matches (tested I k) (inner c) x)) /\
    (exists s, reads st Disjunction ov s) /\ (forall s x, reads st Disjunction ov s -> holds I s x = isnull (matches (tested I v) (inner c) x)) /\
    behind_line st (expection false (XHas2 h k v) c) = st.
Proof. exact keyed_ok. Qed.
Print Assumptions C80_keyed.
Example C80_keyed_example : let k := XPoly not_flags (XEq (VInt 7)) in let v := XOr (XEq (VInt 1)) (XOrder Less (VInt 0)) in
  readable false false false k /\ readable false false false v /\
  map snd (ink [] (expection false (XPoly not_flags (XHas2 HasBoth k v)) ctx0)) = str "!Has(≠7, 1 or <0)" /\
  map snd (ink [] (expection false (XHas2 HasKey k XAny) ctx0)) = str "HasKey(≠7)" /\
  map snd (ink [] (expection false (XPoly (apply_op flags0 (OpTimes 2)) (XHas2 HasValue XAny v)) ctx0)) = str "HasValue(1 or <0) * 2".
Proof. cbv zeta. split; [apply rd_poly; constructor|]. split; [apply rd_or; constructor|]. split; [vm_compute; reflexivity|]. split; vm_compute; reflexivity. Qed.

(** Pair, and Every of a key and a value, not negated *)
Theorem C80_two : forall st (I : leaf -> bool -> bool -> val -> bool) (every : bool) k v c, ~ In (str "dark gray") st -> c_neg c = false -> readable false (c_ci c) (c_sq c) k -> readable false (c_ci c) (c_sq c) v ->
  let m := if every then XEvery2 k v else XPair k v in
  exists ok ov, ink st (expection false m c) = letters st (mark (c_sq c) (str "*") ++ (if every then str "Every" else [])) ++ grayed st (str "(") ++ ok ++ grayed st (str ", ") ++ ov ++ grayed st (str ")") /\
    (exists s, reads st Disjunction ok s) /\ (forall s x, reads st Disjunction ok s -> holds I s x = isnull (matches (tested I k) (inner c) x)) /\
    (exists s, reads st Disjunction ov s) /\ (forall s x, reads st Disjunction ov s -> holds I s x = isnull (matches (tested I v) (inner c) x)) /\
    behind_line st (expection false m c) = st.
Proof. exact two_ok. Qed.
Print Assumptions C80_two.
Example C80_two_example : let k := XPoly not_flags (XEq (VInt 7)) in let v := XOrder Less (VInt 0) in
  readable false false false k /\ readable false false false v /\
  map snd (ink [] (expection false (XEvery2 k v) ctx0)) = str "Every(≠7, <0)" /\ map snd (ink [] (expection false (XPair k v) ctx0)) = str "(≠7, <0)".
Proof. cbv zeta. split; [apply rd_poly; constructor|]. split; [constructor|]. split; vm_compute; reflexivity. Qed.

(** a customised matcher: its name and its arguments, shown like values (C79) *)
Theorem C80_custom : forall st name args c, ~ In (str "dark gray") st -> ~ In 27 name -> Forall quiet args ->
  exists os, Forall2 (shown st true) args os /\
    ink st (expection false (XCustom name args) c) = letters st (mark (c_neg c) not_mark ++ mark (c_ci c) (str "~") ++ mark (c_sq c) (str "*") ++ name) ++ grayed st (str "(") ++ listed st os ++ grayed st (str ")") /\
    behind_line st (expection false (XCustom name args) c) = st.
Proof. exact custom_ok. Qed.
Print Assumptions C80_custom.
Example C80_custom_example : Forall quiet [VInt 3; VText (str "a")] /\
  map snd (ink [] (expection false (XPoly not_flags (XCustom (str "Between") [VInt 3; VText (str "a")])) ctx0)) = str "!Between(3, ""a"")".
Proof. split; [repeat constructor; cbn; intuition discriminate|vm_compute; reflexivity]. Qed.

(** a range: its start, end and step, as far as they are given *)
Theorem C80_range : forall st start e step c, ~ In (str "dark gray") st -> Forall quiet (start :: match e with Some v => [v] | None => [] end ++ match step with Some v => [v] | None => [] end) ->
  exists os, Forall2 (shown st false) (start :: match e with Some v => [v] | None => [] end ++ match step with Some v => [v] | None => [] end) os /\
    ink st (expection false (XRange start e step) c) = letters st (mark (c_neg c) not_mark ++ mark (c_sq c) (str "*") ++ str "Range") ++ grayed st (str "(") ++ listed st os ++ grayed st (str ")") /\
    behind_line st (expection false (XRange start e step) c) = st.
Proof. exact range_ok. Qed.
Print Assumptions C80_range.
Example C80_range_example : Forall quiet (VInt 1 :: [VInt 9] ++ [VInt 2]) /\ map snd (ink [] (expection false (XPoly not_flags (XRange (VInt 1) (Some (VInt 9)) (Some (VInt 2)))) ctx0)) = str "!Range(1, 9, 2)".
Proof. split; [repeat constructor|vm_compute; reflexivity]. Qed.

(** a number with a margin *)
Theorem C80_near : forall st v (percent : bool) d c, ~ In (str "dark gray") st -> quiet v -> quiet d ->
  exists ov od, shown st false v ov /\ shown st false d od /\
    ink st (expection false (XNear v percent d) c) = letters st (mark (c_neg c) unequal_mark ++ mark (c_sq c) (str "*")) ++ ov ++ letters st (str "±") ++ od ++ letters st (mark percent (str "%")) /\
    behind_line st (expection false (XNear v percent d) c) = st.
Proof. exact near_ok. Qed.
Print Assumptions C80_near.
Example C80_near_example : quiet (VInt 100) /\ quiet (VInt 5) /\ map snd (ink [] (expection false (XPoly not_flags (XNear (VInt 100) true (VInt 5))) ctx0)) = str "≠100±5%".
Proof. split; [constructor|]. split; [constructor|vm_compute; reflexivity]. Qed.

(** JSON, memory, types *)
Theorem C80_bare : forall st c s name, ~ In (str "dark gray") st -> sane s -> ~ In 27 name ->
  ink st (expection false (XJson s) c) = letters st (mark (c_neg c) unequal_mark ++ mark (c_ci c) (str "~") ++ mark (c_sq c) (str "*") ++ s) /\
  ink st (expection false XMemory c) = letters st (mark (c_neg c) not_mark ++ mark (c_ci c) (str "~") ++ mark (c_sq c) (str "*") ++ str "Me()") /\
  ink st (expection false (XType name) c) = letters st (mark (c_neg c) unequal_mark ++ mark (c_sq c) (str "*") ++ name).
Proof. exact bare_ok. Qed.
Print Assumptions C80_bare.
Example C80_bare_example : sane (str "{1:2}") /\ map snd (ink [] (expection false (XPoly not_flags (XCaseLess (XJson (str "{1:2}")))) ctx0)) = str "≠~{1:2}".
Proof. split; [split; cbn; intuition discriminate|vm_compute; reflexivity]. Qed.

(** Not of a plain value looks like the value *)
Theorem C80_plain_refuted : exists m n v, ink [] (expection false m ctx0) = ink [] (expection false n ctx0) /\ isnull (matches (tested demo m) ctx0 v) <> isnull (matches (tested demo n) ctx0 v) /\
  m = XPoly flags0 (XNot (XPlain (VInt 5))) /\ n = XPlain (VInt 5).
Proof. exact plain_lost. Qed.
Print Assumptions C80_plain_refuted.
(** that case is ignored is not shown of a plain text *)
Theorem C80_case_refuted : exists m n v, ink [] (expection false m ctx0) = ink [] (expection false n ctx0) /\ isnull (matches (tested demo m) ctx0 v) <> isnull (matches (tested demo n) ctx0 v) /\
  m = XPoly caseless_flags (XAllOf [XPlain (VText (str "abc"))]) /\ n = XPoly flags0 (XAllOf [XPlain (VText (str "abc"))]).
Proof. exact case_lost. Qed.
Print Assumptions C80_case_refuted.
(** within a negated Pair each part is shown with its negation the other way round: this one accepts 5, 5 *)
Theorem C80_pair_refuted : exists m mm, ink [] (expection false m ctx0) = letters [] (str "!") ++ grayed [] (str "(") ++ letters [] (str "≥1") ++ grayed [] (str ", ") ++ letters [] (str "≥2") ++ grayed [] (str ")") /\
  isnull (matches mm ctx0 (MatcherModel.VPair (VNum 5) (VNum 5))) = true /\
  m = XPoly not_flags (XPair (XPoly not_flags (XOrder GreaterEqual (VInt 1))) (XPoly not_flags (XOrder GreaterEqual (VInt 2)))) /\
  mm = MPoly not_flags (MPair (tested demo (XPoly not_flags (XOrder GreaterEqual (VInt 1)))) (tested demo (XPoly not_flags (XOrder GreaterEqual (VInt 2))))).
Proof. exact pair_lost. Qed.
Print Assumptions C80_pair_refuted.
(** a star before two expectations joined by and is shown twice *)
Theorem C80_stars_refuted : exists m, ink [] (expection false m ctx0) = letters [] (str "**5 and *6") /\ (forall l s, ~ reads [] l (ink [] (expection false m ctx0)) s) /\ m = XPoly squash_flags (XAnd (XEq (VInt 5)) (XEq (VInt 6))).
Proof. exact stars_lost. Qed.
Print Assumptions C80_stars_refuted.
