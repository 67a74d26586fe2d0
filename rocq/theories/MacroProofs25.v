(** Proofs about the macros for assertions and for parts of a case: what they become. *)
From Coq Require Import List NArith Bool Arith Lia.
From Verif Require Import Base MacroModel MacroProofs MacroProofs2 MacroProofs3 MacroProofs4 MacroProofs5 MacroProofs6 MacroProofs7 MacroProofs8 MacroProofs9 MacroProofs10 MacroProofs11 MacroProofs12 MacroProofs13 MacroProofs17 MacroProofs19 MacroProofs20 MacroProofs22 MacroProofs23.
From Verif Require MacroSpec MacroSpec2 MacroSpec4 MacroSpec5.
Import ListNotations.
Local Open Scope N_scope.
Local Arguments lookup : simpl never.
Local Arguments bytes_eqb : simpl never.

(** *** the parts: 30 the first argument, 34 and 35 the others, 15 a list of them *)
Definition vE (e a s : list tok) (args : list (list tok)) (k : nat) : list tok :=
  match k with 30%nat => e | 34%nat => a | 35%nat => s | 15%nat => commas args | _ => match kindS k with Inn => [] | _ => [number 0] end end.
Lemma vE_ok : forall e a s args, value e -> value a -> value s -> Forall value args -> forall k, fits table (kindS k) (vE e a s args k).
Proof.
  intros e a s args He Ha Hs Hl k. do 54 (destruct k as [|k]; [first [assumption|exact (commas_inn args Hl)|exact (fill _)]|]). exact (fill _).
Qed.
Definition nameE : list bytes := Eval vm_compute in map (fun s => fst (define s)) assert_text ++ nameS.
Definition s_unique : list stok := raw (str "H2PP_UNIQUE()").
Definition eqsE (some : bool) : list eqn := [(n_empty, [], [R (number 1)]); (n_empty, [O 34], [R (number 0)]); (n_empty, list15 some, [R (one_if (negb some))])].
Definition runE (m : bytes) (s : list stok) (some : bool) : option (list stok) := sk find kindS (known base (eqsE some)) nameE 60 true [] (map ST (call s m)).
Definition runJ (ls : list (list stok)) : option (list stok) := sk find kindS (known base [(n_narg, s_listed (s_unique :: ls), [R (number (S (length ls)))])]) nameE 60 true [] (map ST (call (s_listed ls) (str "H2JE"))).

Definition s_asserts (oppose : bool) (e a checked : list stok) : list stok :=
  raw (str "for (h2::h2_assert") ++ s_unique ++ s_group (raw (if oppose then str "true" else str "false")) ++ raw (str ";") ++ s_unique ++ raw (str ";") ++ s_unique ++
  raw (str ".failing") ++ s_group (s_listed [e; a; s_here]) ++ R TRp :: checked.
Definition s_self : list stok := raw (str "&") ++ s_unique.
Definition s_holds1 (oppose : bool) : list stok := s_asserts oppose (raw (str """""")) (s_spelled [O 30]) (raw (str "h2::h2_ok1") ++ s_group (s_listed [s_self; raw (str "h2::h2_0cp() >") ++ [O 30]])).
Definition s_holds2 (oppose : bool) : list stok :=
  s_asserts oppose (s_spelled [O 30]) (s_group (s_spelled [O 34]))
    (raw (str "h2::h2_ok2") ++ s_group (s_listed [s_self; [O 30]; [O 34]; raw (str "std::is_array<decltype") ++ s_group [O 34] ++ raw (str ">{}"); raw (str "std::extent<decltype") ++ s_group [O 34] ++ raw (str ">::value")])).
Definition s_json (sel : list stok) : list stok := s_asserts false (s_spelled [O 30]) (s_spelled [O 34]) (raw (str "h2::h2_je") ++ s_group (s_listed [s_self; [O 30]; [O 34]; sel])).
Definition s_equals (near : bool) : list stok :=
  raw (str "h2::Equals") ++ s_group (s_listed [[O 30]; if near then raw (str "h2::h2_approximate() *") ++ [O 34] ++ raw (str "+ h2::h2_approximate::B") else raw (str "0")]).
Definition s_memory (some : bool) : list stok := raw (str "h2::Memcmp") ++ s_group (s_listed ([[O 30]; raw (str "std::extent<decltype") ++ s_group [O 30] ++ raw (str ">::value")] ++ if some then [[O 15]] else [])).
Definition s_part (kind : bytes) (arguments : list stok) : list stok := raw (str "for (" ++ kind) ++ s_unique ++ arguments ++ raw (str ";") ++ s_unique ++ raw (str ";)").
Definition s_block (attributes : list stok) : list stok := s_part (str "h2::h2_memory::stack::block") (s_group (s_listed [raw (str "h2::ss") ++ s_group attributes; s_here])).
Definition s_captures (some : bool) : list stok := s_part (str "h2::h2_cout") (s_group (s_listed [[O 30]; s_spelled [O 30]; raw (str "h2::ss") ++ s_group (s_spelled (list15 some)); s_here])).
Definition s_more (some : bool) : list stok := s_listed ([O 30] :: if some then [[O 15]] else []).
Definition namedO (oppose : bool) : bytes := if oppose then str "H2KO" else str "H2OK".

Lemma ok1_run : forall b, gives (runE (namedO b) [O 30] true) (s_holds1 b) = true. Proof. intros [|]; vm_cast_no_check (eq_refl true). Qed.
Lemma ok2_run : forall b, gives (runE (namedO b) [O 30; R TComma; O 34] true) (s_holds2 b) = true. Proof. intros [|]; vm_cast_no_check (eq_refl true). Qed.
Lemma je2_run : gives (runJ [[O 30]; [O 34]]) (s_json (raw (str """"""))) = true. Proof. vm_cast_no_check (eq_refl true). Qed.
Lemma je3_run : gives (runJ [[O 30]; [O 34]; [O 35]]) (s_json [O 35]) = true. Proof. vm_cast_no_check (eq_refl true). Qed.
Lemma eq1_run : gives (runE (str "H2Eq") [O 30] true) (s_equals false) = true. Proof. vm_cast_no_check (eq_refl true). Qed.
Lemma eq2_run : gives (runE (str "H2Eq") [O 30; R TComma; O 34] true) (s_equals true) = true. Proof. vm_cast_no_check (eq_refl true). Qed.
Lemma me_run : forall b, gives (runE (str "H2Me") (s_more b) b) (s_memory b) = true. Proof. intros [|]; vm_cast_no_check (eq_refl true). Qed.
Lemma unmem_run : forall b, gives (runE (str "H2UNMEM") (list15 b) b) (if b then raw (str "h2::h2_unmem") ++ s_group [O 15] else s_block (raw (str """unmem"""))) = true. Proof. intros [|]; vm_cast_no_check (eq_refl true). Qed.
Lemma block_run : forall b, gives (runE (str "H2BLOCK") (list15 b) b) (s_block (s_spelled (list15 b))) = true. Proof. intros [|]; vm_cast_no_check (eq_refl true). Qed.
Lemma cout_run : forall b, gives (runE (str "H2COUT") (s_more b) b) (s_captures b) = true. Proof. intros [|]; vm_cast_no_check (eq_refl true). Qed.
Lemma pf_run : gives (runE (str "H2PF") [O 30] true) (s_part (str "h2::h2_timer") (s_group (s_listed [[O 30]; s_here]))) = true. Proof. vm_cast_no_check (eq_refl true). Qed.
Lemma sock_run : forall b, gives (runE (str "H2SOCK") (list15 b) b) (s_part (str "h2::h2_sock") []) = true. Proof. intros [|]; vm_cast_no_check (eq_refl true). Qed.
