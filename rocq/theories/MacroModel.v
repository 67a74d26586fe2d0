(** Model of the list macros of h2unit (source/utils/h2_macro.hpp:3-145, source/utils/h2_macro.in.hpp:2-176) and of the macros for cases over
    values built on them (source/core/h2_core.hpp:39-124, source/utils/h2_misc.hpp:17-21).  The texts of the definitions are copied line by
    line, in the branch of compilers other than MSVC, and run by a small C preprocessor.  It follows what GCC and Clang do where the C
    standard leaves room: a macro is switched off from its replacement until the end of that replacement has been read, and a name met while
    its macro is switched off is never replaced afterwards.  Spaces are not kept.  Left out: # (H2PP_STR, H2PP_DEBUG), __COUNTER__ and __LINE__
    (H2PP_UNIQUE); such macros stay in the result as calls. *)
From Coq Require Import List NArith Bool Arith.
From Verif Require Import Base.
Import ListNotations.
Local Open Scope N_scope.

(** preprocessing tokens (not in the code; C11 6.4); a name is blue when it is not to be replaced any more (e.g. h2_macro.hpp:122, where
    __H2PP_FOREACH is needed for that reason) *)
Inductive tok := TId (n : bytes) (blue : bool) | TNum (d : bytes) | TLp | TRp | TComma | TOther (t : bytes).
(** what is still to be read: tokens, and the ends of replacements (not in the code; the contexts of a preprocessor, for h2_macro.hpp:3-145) *)
Inductive item := Tok (t : tok) | End (m : bytes).
(** a definition (e.g. h2_macro.hpp:6): its parameters, if it has a list of them; whether that ends in an ellipsis; the replacement *)
Record macro := mkmacro { params : option (list bytes); variadic : bool; body : list tok }.

(** letters and underscores; digits (not in the code; C11 6.4.2, for e.g. h2_macro.hpp:6) *)
Definition letter (c : N) : bool := ((65 <=? c) && (c <=? 90)) || ((97 <=? c) && (c <=? 122)) || (c =? 95).
(** see letter (not in the code; C11 6.4.2, for e.g. h2_macro.hpp:6) *)
Definition digit (c : N) : bool := (48 <=? c) && (c <=? 57).
(** splits a text in tokens (not in the code; C11 6.4, for e.g. h2_macro.hpp:6); [w] is the name or number being read, backwards *)
Fixpoint lex (w : bytes) (s : bytes) : list tok :=
  let out := match rev w with [] => [] | c :: _ => [if letter c then TId (rev w) false else TNum (rev w)] end in
  match s with
  | [] => out
  | c :: r =>
    if letter c || digit c then lex (c :: w) r
    else out ++ (if c =? 32 then lex [] r
                 else if c =? 40 then TLp :: lex [] r
                 else if c =? 41 then TRp :: lex [] r
                 else if c =? 44 then TComma :: lex [] r
                 else match c, r with
                      | 35, 35 :: r' => TOther (str "##") :: lex [] r'
                      | 46, 46 :: 46 :: r' => TOther (str "...") :: lex [] r'
                      | _, _ => TOther [c] :: lex [] r
                      end)
  end.
(** the names of a list of parameters up to its ) and what follows (e.g. h2_macro.hpp:6) *)
Fixpoint param_list (ts : list tok) : list bytes * bool * list tok :=
  match ts with
  | TId n _ :: r => let '(ps, v, b) := param_list r in (n :: ps, v, b)
  | TComma :: r => param_list r
  | TOther _ :: r => let '(ps, _, b) := param_list r in (ps, true, b)
  | TRp :: r => ([], false, r)
  | _ => ([], false, ts)
  end.
(** reads what follows #define (e.g. h2_macro.hpp:6): a name right before a ( has parameters *)
Definition define (s : bytes) : bytes * macro :=
  match lex [] s with
  | TId n _ :: ts =>
    match skipn (length n) s, ts with
    | 40 :: _, TLp :: r => let '(ps, v, b) := param_list r in (n, mkmacro (Some ps) v b)
    | _, _ => (n, mkmacro None false ts)
    end
  | _ => ([], mkmacro None false [])
  end.

(** the macros of source/utils/h2_macro.hpp:3-145, in the branch of compilers other than MSVC; without H2PP_STR, H2PP_UNIQUE and H2PP_DEBUG *)
Definition header_text : list bytes := [
  (* h2_macro.hpp:6 *) str "H2PP_CAT(_1, _2) _H2PP_CAT2(_1, _2)";
  (* h2_macro.hpp:7 *) str "H2PP_CAT2(_1, _2) _H2PP_CAT2(_1, _2)";
  (* h2_macro.hpp:8 *) str "_H2PP_CAT2(_1, _2) _1##_2";
  (* h2_macro.hpp:9 *) str "H2PP_CAT5(_1, _2, _3, _4, _5) _H2PP_CAT5(_1, _2, _3, _4, _5)";
  (* h2_macro.hpp:10 *) str "_H2PP_CAT5(_1, _2, _3, _4, _5) _1##_2##_3##_4##_5";
  (* h2_macro.hpp:12 *) str "H2PP_COMMA(...) ,";
  (* h2_macro.hpp:13 *) str "H2PP_EMPTY(...)";
  (* h2_macro.hpp:14 *) str "H2PP_DEFER(...) __VA_ARGS__ H2PP_EMPTY()";
  (* h2_macro.hpp:15 *) str "H2PP_RESCAN(_1) _1";
  (* h2_macro.hpp:18 *) str "H2PP_PROXY(_Macro, _Args) _H2PP_PROXY(_Macro, _Args)";
  (* h2_macro.hpp:19 *) str "H2PP_PROXY2(_Macro, _Spec, _Args) _H2PP_PROXY(_H2PP_CAT2(_Macro, _Spec), _Args)";
  (* h2_macro.hpp:20 *) str "_H2PP_PROXY(_Macro, _Args) H2PP_RESCAN(_Macro _Args)";
  (* h2_macro.hpp:25 *) str "H2PP_IS_PROBE(...) _H2PP_TH1(__VA_ARGS__, 0, )";
  (* h2_macro.hpp:28 *) str "H2PP_PROBE() ~, 1,";
  (* h2_macro.hpp:30 *) str "H2PP_EVAL(...) _H2PP_EVAL_128(__VA_ARGS__)";
  (* h2_macro.hpp:32 *) str "H2PP_EQ(_1, _2) H2PP_IS_PROBE(H2PP_CAT5(_H2PP_EQ, __, _1, __, _2))";
  (* h2_macro.hpp:34 *) str "H2PP_NOT(_Cond) H2PP_IS_PROBE(_H2PP_CAT2(_H2PP_NOT_, _Cond))";
  (* h2_macro.hpp:35 *) str "_H2PP_NOT_0 H2PP_PROBE()";
  (* h2_macro.hpp:37 *) str "H2PP_COMPL(_Value) _H2PP_CAT2(_H2PP_COMPL_, _Value)";
  (* h2_macro.hpp:38 *) str "_H2PP_COMPL_0 1";
  (* h2_macro.hpp:39 *) str "_H2PP_COMPL_1 0";
  (* h2_macro.hpp:41 *) str "H2PP_BOOL(_Cond) H2PP_COMPL(H2PP_NOT(_Cond))";
  (* h2_macro.hpp:43 *) str "H2PP_AND(_1, _2) H2PP_CAT2(_H2PP_AND_, H2PP_BOOL(_1)) (H2PP_BOOL(_2))";
  (* h2_macro.hpp:44 *) str "_H2PP_AND_0(_2) 0";
  (* h2_macro.hpp:45 *) str "_H2PP_AND_1(_2) _2";
  (* h2_macro.hpp:47 *) str "H2PP_OR(_1, _2) H2PP_CAT2(_H2PP_OR_, H2PP_BOOL(_1)) (H2PP_BOOL(_2))";
  (* h2_macro.hpp:48 *) str "_H2PP_OR_0(_2) _2";
  (* h2_macro.hpp:49 *) str "_H2PP_OR_1(_2) 1";
  (* h2_macro.hpp:51 *) str "H2PP_IF_ELSE(_Cond, _Then, _Else) H2PP_CAT2(_H2PP_IF_ELSE_, _Cond) (_Then, _Else)";
  (* h2_macro.hpp:52 *) str "_H2PP_IF_ELSE_1(_Then, _Else) _Then";
  (* h2_macro.hpp:53 *) str "_H2PP_IF_ELSE_0(_Then, _Else) _Else";
  (* h2_macro.hpp:55 *) str "H2PP_IF(_Cond) H2PP_CAT2(_H2PP_IF_, H2PP_BOOL(_Cond))";
  (* h2_macro.hpp:56 *) str "_H2PP_IF_1(...) __VA_ARGS__";
  (* h2_macro.hpp:57 *) str "_H2PP_IF_0(...)";
  (* h2_macro.hpp:60 *) str "H2PP_IS_BEGIN_PARENTHESIS(...) H2PP_IS_PROBE(_H2PP_IS_BEGIN_PARENTHESIS_PROBE __VA_ARGS__)";
  (* h2_macro.hpp:61 *) str "_H2PP_IS_BEGIN_PARENTHESIS_PROBE(...) H2PP_PROBE()";
  (* h2_macro.hpp:64 *) str "H2PP_IS_PARENTHESIS(...) H2PP_IF_ELSE(H2PP_IS_BEGIN_PARENTHESIS(__VA_ARGS__), H2PP_IS_EMPTY(H2PP_EMPTY __VA_ARGS__), 0)";
  (* h2_macro.hpp:66 *) str "H2PP_REMOVE_PARENTHESES(...) _H2PP_REMOVE_PARENTHESES __VA_ARGS__";
  (* h2_macro.hpp:67 *) str "_H2PP_REMOVE_PARENTHESES(...) __VA_ARGS__";
  (* h2_macro.hpp:69 *) str "H2PP_REMOVE_PARENTHESES_IF(...) H2PP_CAT2(_H2PP_REMOVE_PARENTHESES_IF_, H2PP_IS_PARENTHESIS(__VA_ARGS__)) (__VA_ARGS__)";
  (* h2_macro.hpp:70 *) str "_H2PP_REMOVE_PARENTHESES_IF_1(...) H2PP_REMOVE_PARENTHESES(__VA_ARGS__)";
  (* h2_macro.hpp:71 *) str "_H2PP_REMOVE_PARENTHESES_IF_0(...) __VA_ARGS__";
  (* h2_macro.hpp:77-80 *) str "H2PP_IS_EMPTY(...) _H2PP_IS_EMPTY(H2PP_HAS_COMMA(__VA_ARGS__), H2PP_HAS_COMMA(H2PP_COMMA __VA_ARGS__), H2PP_HAS_COMMA(__VA_ARGS__()), H2PP_HAS_COMMA(H2PP_COMMA __VA_ARGS__()))";
  (* h2_macro.hpp:81 *) str "_H2PP_IS_EMPTY(_1, _2, _3, _4) H2PP_HAS_COMMA(_H2PP_CAT5(_H2PP_IS_EMPTY_CASE_, _1, _2, _3, _4))";
  (* h2_macro.hpp:82 *) str "_H2PP_IS_EMPTY_CASE_0001 ,";
  (* h2_macro.hpp:84 *) str "H2PP_NARG(...) H2PP_CAT(_H2PP_NARG_, H2PP_IS_EMPTY(__VA_ARGS__)) (__VA_ARGS__)";
  (* h2_macro.hpp:85 *) str "_H2PP_NARG_0(...) H2PP_ARG_COUNT(__VA_ARGS__)";
  (* h2_macro.hpp:86 *) str "_H2PP_NARG_1(...) 0";
  (* h2_macro.hpp:88 *) str "H2PP_NCALL(_Macro, N, ...) H2PP_RESCAN(H2PP_CAT2(_Macro, H2PP_EQ(N, H2PP_NARG(__VA_ARGS__))) (__VA_ARGS__))";
  (* h2_macro.hpp:89 *) str "H2PP_VCALL(_Macro, ...) H2PP_RESCAN(H2PP_CAT2(_Macro, H2PP_NARG(__VA_ARGS__)) (__VA_ARGS__))";
  (* h2_macro.hpp:91 *) str "H2PP_HEAD(...) H2PP_CAT2(_H2PP_HEAD_, H2PP_IS_EMPTY(__VA_ARGS__)) ((__VA_ARGS__))";
  (* h2_macro.hpp:92 *) str "_H2PP_HEAD_0(MSVC_Workaround) H2PP_RESCAN(_H2PP_HEAD_0_R MSVC_Workaround)";
  (* h2_macro.hpp:93 *) str "_H2PP_HEAD_0_R(_1, ...) _1";
  (* h2_macro.hpp:94 *) str "_H2PP_HEAD_1(...)";
  (* h2_macro.hpp:96 *) str "H2PP_TAIL(...) H2PP_CAT2(_H2PP_TAIL_, H2PP_IS_EMPTY(__VA_ARGS__)) ((__VA_ARGS__))";
  (* h2_macro.hpp:97 *) str "_H2PP_TAIL_0(MSVC_Workaround) H2PP_RESCAN(_H2PP_TAIL_0_R MSVC_Workaround)";
  (* h2_macro.hpp:98 *) str "_H2PP_TAIL_0_R(_1, ...) __VA_ARGS__";
  (* h2_macro.hpp:99 *) str "_H2PP_TAIL_1(...)";
  (* h2_macro.hpp:101 *) str "H2PP_LAST(...) H2PP_EVAL(_H2PP_LAST(__VA_ARGS__))";
  (* h2_macro.hpp:102 *) str "_H2PP_LAST(...) H2PP_CAT2(_H2PP_LAST_, H2PP_IS_EMPTY(__VA_ARGS__)) (__VA_ARGS__)";
  (* h2_macro.hpp:103 *) str "_H2PP_LAST_1(...)";
  (* h2_macro.hpp:104 *) str "_H2PP_LAST_0(...) H2PP_CAT2(_H2PP_LAST_0_, H2PP_EQ(1, H2PP_NARG(__VA_ARGS__))) (__VA_ARGS__)";
  (* h2_macro.hpp:105 *) str "_H2PP_LAST_0_1(...) __VA_ARGS__";
  (* h2_macro.hpp:106 *) str "_H2PP_LAST_0_0(...) H2PP_DEFER(__H2PP_LAST)()(H2PP_TAIL(__VA_ARGS__))";
  (* h2_macro.hpp:107 *) str "__H2PP_LAST() _H2PP_LAST_0";
  (* h2_macro.hpp:109 *) str "H2PP_REPEAT(_Split, _Macro, _Args, _Count) H2PP_EVAL(_H2PP_REPEAT(_Split, _Macro, _Args, _Count))";
  (* h2_macro.hpp:110 *) str "_H2PP_REPEAT(_Split, _Macro, _Args, _Count) H2PP_CAT2(_H2PP_REPEAT_, H2PP_BOOL(_Count)) (_Split, _Macro, _Args, _Count)";
  (* h2_macro.hpp:111 *) str "_H2PP_REPEAT_0(...)";
  (* h2_macro.hpp:112 *) str "_H2PP_REPEAT_1(_Split, _Macro, _Args, _Count) H2PP_DEFER(__H2PP_REPEAT)()(_Split, _Macro, _Args, H2PP_CAT2(H2PP_DEC_, _Count)) _H2PP_REPEAT_CALL_MACRO(_Split, _Macro, _Args, H2PP_CAT2(H2PP_DEC_, _Count))";
  (* h2_macro.hpp:113 *) str "__H2PP_REPEAT() _H2PP_REPEAT";
  (* h2_macro.hpp:114 *) str "_H2PP_REPEAT_CALL_MACRO(_Split, _Macro, _Args, _i) H2PP_CAT2(_H2PP_REPEAT_CALL_MACRO_, H2PP_EQ(0, _i)) (_Split, _Macro, _Args, _i)";
  (* h2_macro.hpp:115 *) str "_H2PP_REPEAT_CALL_MACRO_1(_Split, _Macro, _Args, _i) _Macro(_Args, _i)";
  (* h2_macro.hpp:116 *) str "_H2PP_REPEAT_CALL_MACRO_0(_Split, _Macro, _Args, _i) H2PP_REMOVE_PARENTHESES_IF(_Split) _Macro(_Args, _i)";
  (* h2_macro.hpp:118 *) str "H2PP_FOREACH(_Split, _Macro, _Args, ...) H2PP_EVAL(_H2PP_FOREACH(_Split, _Macro, _Args, 0, __VA_ARGS__))";
  (* h2_macro.hpp:119 *) str "_H2PP_FOREACH(_Split, _Macro, _Args, _i, ...) H2PP_CAT2(_H2PP_FOREACH_, H2PP_IS_EMPTY(__VA_ARGS__)) (_Split, _Macro, _Args, _i, __VA_ARGS__)";
  (* h2_macro.hpp:120 *) str "_H2PP_FOREACH_1(...)";
  (* h2_macro.hpp:121 *) str "_H2PP_FOREACH_0(_Split, _Macro, _Args, _i, ...) _H2PP_FOREACH_CALL_MACRO(_Split, _Macro, _Args, _i, H2PP_HEAD(__VA_ARGS__)) H2PP_DEFER(__H2PP_FOREACH)()(_Split, _Macro, _Args, H2PP_CAT2(H2PP_INC_, _i), H2PP_TAIL(__VA_ARGS__))";
  (* h2_macro.hpp:122 *) str "__H2PP_FOREACH() _H2PP_FOREACH";
  (* h2_macro.hpp:123 *) str "_H2PP_FOREACH_CALL_MACRO(_Split, _Macro, _Args, _i, _x) H2PP_CAT2(_H2PP_FOREACH_CALL_MACRO_, H2PP_EQ(0, _i)) (_Split, _Macro, _Args, _i, _x)";
  (* h2_macro.hpp:124 *) str "_H2PP_FOREACH_CALL_MACRO_1(_Split, _Macro, _Args, _i, _x) _Macro(_Args, _i, _x)";
  (* h2_macro.hpp:125 *) str "_H2PP_FOREACH_CALL_MACRO_0(_Split, _Macro, _Args, _i, _x) H2PP_REMOVE_PARENTHESES_IF(_Split) _Macro(_Args, _i, _x)";
  (* h2_macro.hpp:127 *) str "H2PP_FULLMESH(_Split, _Macro, _Args, ...) H2PP_RESCAN(H2PP_CAT2(_H2PP_FULLMESH1_, H2PP_IS_EMPTY(__VA_ARGS__)) ((_Split, _Macro, _Args, __VA_ARGS__)))";
  (* h2_macro.hpp:128 *) str "_H2PP_FULLMESH1_1(...)";
  (* h2_macro.hpp:129 *) str "_H2PP_FULLMESH1_0(MSVC_Workaround) H2PP_RESCAN(H2PP_FULLMESH1 MSVC_Workaround)";
  (* h2_macro.hpp:130 *) str "H2PP_FULLMESH1(_Split, _Macro, _Args, _1, ...) H2PP_CAT2(_H2PP_FULLMESH2_, H2PP_IS_EMPTY(__VA_ARGS__)) (_Split, _Macro, _Args, _1, __VA_ARGS__)";
  (* h2_macro.hpp:131 *) str "_H2PP_FULLMESH2_1(_Split, _Macro, _Args, _1, ...) H2PP_FULLMESH2(_Split, _Macro, _Args, _1, _1)";
  (* h2_macro.hpp:132 *) str "_H2PP_FULLMESH2_0(...) _H2PP_FULLMESH2_0_R((__VA_ARGS__))";
  (* h2_macro.hpp:133 *) str "_H2PP_FULLMESH2_0_R(MSVC_Workaround) H2PP_RESCAN(H2PP_FULLMESH2 MSVC_Workaround)";
  (* h2_macro.hpp:134 *) str "H2PP_FULLMESH2(_Split, _Macro, _Args, _Tuplex, _Tupley) H2PP_EVAL(_H2PP_FOREACHx(_Split, _Macro, _Args, 0, _Tupley, H2PP_REMOVE_PARENTHESES(_Tuplex)))";
  (* h2_macro.hpp:135 *) str "_H2PP_FOREACHx(_Split, _Macro, _Args, _i, _Tupley, ...) H2PP_CAT2(_H2PP_FOREACHx_, H2PP_IS_EMPTY(__VA_ARGS__)) (_Split, _Macro, _Args, _i, _Tupley, __VA_ARGS__)";
  (* h2_macro.hpp:136 *) str "_H2PP_FOREACHx_1(...)";
  (* h2_macro.hpp:137 *) str "_H2PP_FOREACHx_0(_Split, _Macro, _Args, _i, _Tupley, ...) _H2PP_FOREACHy(_Split, _Macro, _Args, _i, 0, H2PP_HEAD(__VA_ARGS__), H2PP_REMOVE_PARENTHESES(_Tupley)) H2PP_DEFER(__H2PP_FOREACHx)()(_Split, _Macro, _Args, H2PP_CAT2(H2PP_INC_, _i), _Tupley, H2PP_TAIL(__VA_ARGS__))";
  (* h2_macro.hpp:138 *) str "__H2PP_FOREACHx() _H2PP_FOREACHx";
  (* h2_macro.hpp:139 *) str "_H2PP_FOREACHy(_Split, _Macro, _Args, _i, _j, _x, ...) H2PP_CAT2(_H2PP_FOREACHy_, H2PP_IS_EMPTY(__VA_ARGS__)) (_Split, _Macro, _Args, _i, _j, _x, __VA_ARGS__)";
  (* h2_macro.hpp:140 *) str "_H2PP_FOREACHy_1(...)";
  (* h2_macro.hpp:141 *) str "_H2PP_FOREACHy_0(_Split, _Macro, _Args, _i, _j, _x, ...) _H2PP_FULLMESH_CALL_MACRO(_Split, _Macro, _Args, _i, _j, _x, H2PP_HEAD(__VA_ARGS__)) H2PP_DEFER(__H2PP_FOREACHy)()(_Split, _Macro, _Args, _i, H2PP_CAT2(H2PP_INC_, _j), _x, H2PP_TAIL(__VA_ARGS__))";
  (* h2_macro.hpp:142 *) str "__H2PP_FOREACHy() _H2PP_FOREACHy";
  (* h2_macro.hpp:143 *) str "_H2PP_FULLMESH_CALL_MACRO(_Split, _Macro, _Args, _i, _j, _x, _y) H2PP_CAT2(_H2PP_FULLMESH_CALL_MACRO_, H2PP_AND(H2PP_EQ(0, _i), H2PP_EQ(0, _j))) (_Split, _Macro, _Args, _i, _j, _x, _y)";
  (* h2_macro.hpp:144 *) str "_H2PP_FULLMESH_CALL_MACRO_1(_Split, _Macro, _Args, _i, _j, _x, _y) _Macro(_Args, _i, _j, _x, _y)";
  (* h2_macro.hpp:145 *) str "_H2PP_FULLMESH_CALL_MACRO_0(_Split, _Macro, _Args, _i, _j, _x, _y) H2PP_REMOVE_PARENTHESES_IF(_Split) _Macro(_Args, _i, _j, _x, _y)"].

(** the macros of source/utils/h2_macro.in.hpp:2-176 *)
Definition generated_text : list bytes := [
  (* h2_macro.in.hpp:2 *) str "_H2PP_EQ__0__0 H2PP_PROBE()";
  (* h2_macro.in.hpp:3 *) str "_H2PP_EQ__1__1 H2PP_PROBE()";
  (* h2_macro.in.hpp:4 *) str "_H2PP_EQ__2__2 H2PP_PROBE()";
  (* h2_macro.in.hpp:5 *) str "_H2PP_EQ__3__3 H2PP_PROBE()";
  (* h2_macro.in.hpp:6 *) str "_H2PP_EQ__4__4 H2PP_PROBE()";
  (* h2_macro.in.hpp:7 *) str "_H2PP_EQ__5__5 H2PP_PROBE()";
  (* h2_macro.in.hpp:8 *) str "_H2PP_EQ__6__6 H2PP_PROBE()";
  (* h2_macro.in.hpp:9 *) str "_H2PP_EQ__7__7 H2PP_PROBE()";
  (* h2_macro.in.hpp:10 *) str "_H2PP_EQ__8__8 H2PP_PROBE()";
  (* h2_macro.in.hpp:11 *) str "_H2PP_EQ__9__9 H2PP_PROBE()";
  (* h2_macro.in.hpp:12 *) str "_H2PP_EQ__10__10 H2PP_PROBE()";
  (* h2_macro.in.hpp:13 *) str "_H2PP_EQ__11__11 H2PP_PROBE()";
  (* h2_macro.in.hpp:14 *) str "_H2PP_EQ__12__12 H2PP_PROBE()";
  (* h2_macro.in.hpp:15 *) str "_H2PP_EQ__13__13 H2PP_PROBE()";
  (* h2_macro.in.hpp:16 *) str "_H2PP_EQ__14__14 H2PP_PROBE()";
  (* h2_macro.in.hpp:17 *) str "_H2PP_EQ__15__15 H2PP_PROBE()";
  (* h2_macro.in.hpp:18 *) str "_H2PP_EQ__16__16 H2PP_PROBE()";
  (* h2_macro.in.hpp:19 *) str "_H2PP_EQ__17__17 H2PP_PROBE()";
  (* h2_macro.in.hpp:20 *) str "_H2PP_EQ__18__18 H2PP_PROBE()";
  (* h2_macro.in.hpp:21 *) str "_H2PP_EQ__19__19 H2PP_PROBE()";
  (* h2_macro.in.hpp:22 *) str "_H2PP_EQ__20__20 H2PP_PROBE()";
  (* h2_macro.in.hpp:23 *) str "_H2PP_EQ__21__21 H2PP_PROBE()";
  (* h2_macro.in.hpp:24 *) str "_H2PP_EQ__22__22 H2PP_PROBE()";
  (* h2_macro.in.hpp:25 *) str "_H2PP_EQ__23__23 H2PP_PROBE()";
  (* h2_macro.in.hpp:26 *) str "_H2PP_EQ__24__24 H2PP_PROBE()";
  (* h2_macro.in.hpp:27 *) str "_H2PP_EQ__25__25 H2PP_PROBE()";
  (* h2_macro.in.hpp:28 *) str "_H2PP_EQ__26__26 H2PP_PROBE()";
  (* h2_macro.in.hpp:29 *) str "_H2PP_EQ__27__27 H2PP_PROBE()";
  (* h2_macro.in.hpp:30 *) str "_H2PP_EQ__28__28 H2PP_PROBE()";
  (* h2_macro.in.hpp:31 *) str "_H2PP_EQ__29__29 H2PP_PROBE()";
  (* h2_macro.in.hpp:32 *) str "_H2PP_EQ__30__30 H2PP_PROBE()";
  (* h2_macro.in.hpp:33 *) str "_H2PP_EQ__31__31 H2PP_PROBE()";
  (* h2_macro.in.hpp:35 *) str "_H2PP_TH0(_0, ...) _0";
  (* h2_macro.in.hpp:36 *) str "_H2PP_TH1(_0, _1, ...) _1";
  (* h2_macro.in.hpp:37 *) str "_H2PP_TH2(_0, _1, _2, ...) _2";
  (* h2_macro.in.hpp:38 *) str "_H2PP_TH3(_0, _1, _2, _3, ...) _3";
  (* h2_macro.in.hpp:39 *) str "_H2PP_TH4(_0, _1, _2, _3, _4, ...) _4";
  (* h2_macro.in.hpp:40 *) str "_H2PP_TH5(_0, _1, _2, _3, _4, _5, ...) _5";
  (* h2_macro.in.hpp:41 *) str "_H2PP_TH6(_0, _1, _2, _3, _4, _5, _6, ...) _6";
  (* h2_macro.in.hpp:42 *) str "_H2PP_TH7(_0, _1, _2, _3, _4, _5, _6, _7, ...) _7";
  (* h2_macro.in.hpp:43 *) str "_H2PP_TH8(_0, _1, _2, _3, _4, _5, _6, _7, _8, ...) _8";
  (* h2_macro.in.hpp:44 *) str "_H2PP_TH9(_0, _1, _2, _3, _4, _5, _6, _7, _8, _9, ...) _9";
  (* h2_macro.in.hpp:45 *) str "_H2PP_TH10(_0, _1, _2, _3, _4, _5, _6, _7, _8, _9, _10, ...) _10";
  (* h2_macro.in.hpp:46 *) str "_H2PP_TH11(_0, _1, _2, _3, _4, _5, _6, _7, _8, _9, _10, _11, ...) _11";
  (* h2_macro.in.hpp:47 *) str "_H2PP_TH12(_0, _1, _2, _3, _4, _5, _6, _7, _8, _9, _10, _11, _12, ...) _12";
  (* h2_macro.in.hpp:48 *) str "_H2PP_TH13(_0, _1, _2, _3, _4, _5, _6, _7, _8, _9, _10, _11, _12, _13, ...) _13";
  (* h2_macro.in.hpp:49 *) str "_H2PP_TH14(_0, _1, _2, _3, _4, _5, _6, _7, _8, _9, _10, _11, _12, _13, _14, ...) _14";
  (* h2_macro.in.hpp:50 *) str "_H2PP_TH15(_0, _1, _2, _3, _4, _5, _6, _7, _8, _9, _10, _11, _12, _13, _14, _15, ...) _15";
  (* h2_macro.in.hpp:51 *) str "_H2PP_TH16(_0, _1, _2, _3, _4, _5, _6, _7, _8, _9, _10, _11, _12, _13, _14, _15, _16, ...) _16";
  (* h2_macro.in.hpp:52 *) str "_H2PP_TH17(_0, _1, _2, _3, _4, _5, _6, _7, _8, _9, _10, _11, _12, _13, _14, _15, _16, _17, ...) _17";
  (* h2_macro.in.hpp:53 *) str "_H2PP_TH18(_0, _1, _2, _3, _4, _5, _6, _7, _8, _9, _10, _11, _12, _13, _14, _15, _16, _17, _18, ...) _18";
  (* h2_macro.in.hpp:54 *) str "_H2PP_TH19(_0, _1, _2, _3, _4, _5, _6, _7, _8, _9, _10, _11, _12, _13, _14, _15, _16, _17, _18, _19, ...) _19";
  (* h2_macro.in.hpp:55 *) str "_H2PP_TH20(_0, _1, _2, _3, _4, _5, _6, _7, _8, _9, _10, _11, _12, _13, _14, _15, _16, _17, _18, _19, _20, ...) _20";
  (* h2_macro.in.hpp:56 *) str "_H2PP_TH21(_0, _1, _2, _3, _4, _5, _6, _7, _8, _9, _10, _11, _12, _13, _14, _15, _16, _17, _18, _19, _20, _21, ...) _21";
  (* h2_macro.in.hpp:57 *) str "_H2PP_TH22(_0, _1, _2, _3, _4, _5, _6, _7, _8, _9, _10, _11, _12, _13, _14, _15, _16, _17, _18, _19, _20, _21, _22, ...) _22";
  (* h2_macro.in.hpp:58 *) str "_H2PP_TH23(_0, _1, _2, _3, _4, _5, _6, _7, _8, _9, _10, _11, _12, _13, _14, _15, _16, _17, _18, _19, _20, _21, _22, _23, ...) _23";
  (* h2_macro.in.hpp:59 *) str "_H2PP_TH24(_0, _1, _2, _3, _4, _5, _6, _7, _8, _9, _10, _11, _12, _13, _14, _15, _16, _17, _18, _19, _20, _21, _22, _23, _24, ...) _24";
  (* h2_macro.in.hpp:60 *) str "_H2PP_TH25(_0, _1, _2, _3, _4, _5, _6, _7, _8, _9, _10, _11, _12, _13, _14, _15, _16, _17, _18, _19, _20, _21, _22, _23, _24, _25, ...) _25";
  (* h2_macro.in.hpp:61 *) str "_H2PP_TH26(_0, _1, _2, _3, _4, _5, _6, _7, _8, _9, _10, _11, _12, _13, _14, _15, _16, _17, _18, _19, _20, _21, _22, _23, _24, _25, _26, ...) _26";
  (* h2_macro.in.hpp:62 *) str "_H2PP_TH27(_0, _1, _2, _3, _4, _5, _6, _7, _8, _9, _10, _11, _12, _13, _14, _15, _16, _17, _18, _19, _20, _21, _22, _23, _24, _25, _26, _27, ...) _27";
  (* h2_macro.in.hpp:63 *) str "_H2PP_TH28(_0, _1, _2, _3, _4, _5, _6, _7, _8, _9, _10, _11, _12, _13, _14, _15, _16, _17, _18, _19, _20, _21, _22, _23, _24, _25, _26, _27, _28, ...) _28";
  (* h2_macro.in.hpp:64 *) str "_H2PP_TH29(_0, _1, _2, _3, _4, _5, _6, _7, _8, _9, _10, _11, _12, _13, _14, _15, _16, _17, _18, _19, _20, _21, _22, _23, _24, _25, _26, _27, _28, _29, ...) _29";
  (* h2_macro.in.hpp:65 *) str "_H2PP_TH30(_0, _1, _2, _3, _4, _5, _6, _7, _8, _9, _10, _11, _12, _13, _14, _15, _16, _17, _18, _19, _20, _21, _22, _23, _24, _25, _26, _27, _28, _29, _30, ...) _30";
  (* h2_macro.in.hpp:66 *) str "_H2PP_TH31(_0, _1, _2, _3, _4, _5, _6, _7, _8, _9, _10, _11, _12, _13, _14, _15, _16, _17, _18, _19, _20, _21, _22, _23, _24, _25, _26, _27, _28, _29, _30, _31, ...) _31";
  (* h2_macro.in.hpp:67 *) str "H2PP_TH0(...) H2PP_PROXY2(_H2PP_TH, 0, (__VA_ARGS__, ))";
  (* h2_macro.in.hpp:68 *) str "H2PP_TH1(...) H2PP_PROXY2(_H2PP_TH, 1, (__VA_ARGS__, , ))";
  (* h2_macro.in.hpp:69 *) str "H2PP_TH2(...) H2PP_PROXY2(_H2PP_TH, 2, (__VA_ARGS__, , , ))";
  (* h2_macro.in.hpp:70 *) str "H2PP_TH3(...) H2PP_PROXY2(_H2PP_TH, 3, (__VA_ARGS__, , , , ))";
  (* h2_macro.in.hpp:71 *) str "H2PP_TH4(...) H2PP_PROXY2(_H2PP_TH, 4, (__VA_ARGS__, , , , , ))";
  (* h2_macro.in.hpp:72 *) str "H2PP_TH5(...) H2PP_PROXY2(_H2PP_TH, 5, (__VA_ARGS__, , , , , , ))";
  (* h2_macro.in.hpp:73 *) str "H2PP_TH6(...) H2PP_PROXY2(_H2PP_TH, 6, (__VA_ARGS__, , , , , , , ))";
  (* h2_macro.in.hpp:74 *) str "H2PP_TH7(...) H2PP_PROXY2(_H2PP_TH, 7, (__VA_ARGS__, , , , , , , , ))";
  (* h2_macro.in.hpp:75 *) str "H2PP_TH8(...) H2PP_PROXY2(_H2PP_TH, 8, (__VA_ARGS__, , , , , , , , , ))";
  (* h2_macro.in.hpp:76 *) str "H2PP_TH9(...) H2PP_PROXY2(_H2PP_TH, 9, (__VA_ARGS__, , , , , , , , , , ))";
  (* h2_macro.in.hpp:77 *) str "H2PP_TH10(...) H2PP_PROXY2(_H2PP_TH, 10, (__VA_ARGS__, , , , , , , , , , , ))";
  (* h2_macro.in.hpp:78 *) str "H2PP_TH11(...) H2PP_PROXY2(_H2PP_TH, 11, (__VA_ARGS__, , , , , , , , , , , , ))";
  (* h2_macro.in.hpp:79 *) str "H2PP_TH12(...) H2PP_PROXY2(_H2PP_TH, 12, (__VA_ARGS__, , , , , , , , , , , , , ))";
  (* h2_macro.in.hpp:80 *) str "H2PP_TH13(...) H2PP_PROXY2(_H2PP_TH, 13, (__VA_ARGS__, , , , , , , , , , , , , , ))";
  (* h2_macro.in.hpp:81 *) str "H2PP_TH14(...) H2PP_PROXY2(_H2PP_TH, 14, (__VA_ARGS__, , , , , , , , , , , , , , , ))";
  (* h2_macro.in.hpp:82 *) str "H2PP_TH15(...) H2PP_PROXY2(_H2PP_TH, 15, (__VA_ARGS__, , , , , , , , , , , , , , , , ))";
  (* h2_macro.in.hpp:83 *) str "H2PP_TH16(...) H2PP_PROXY2(_H2PP_TH, 16, (__VA_ARGS__, , , , , , , , , , , , , , , , , ))";
  (* h2_macro.in.hpp:84 *) str "H2PP_TH17(...) H2PP_PROXY2(_H2PP_TH, 17, (__VA_ARGS__, , , , , , , , , , , , , , , , , , ))";
  (* h2_macro.in.hpp:85 *) str "H2PP_TH18(...) H2PP_PROXY2(_H2PP_TH, 18, (__VA_ARGS__, , , , , , , , , , , , , , , , , , , ))";
  (* h2_macro.in.hpp:86 *) str "H2PP_TH19(...) H2PP_PROXY2(_H2PP_TH, 19, (__VA_ARGS__, , , , , , , , , , , , , , , , , , , , ))";
  (* h2_macro.in.hpp:87 *) str "H2PP_TH20(...) H2PP_PROXY2(_H2PP_TH, 20, (__VA_ARGS__, , , , , , , , , , , , , , , , , , , , , ))";
  (* h2_macro.in.hpp:88 *) str "H2PP_TH21(...) H2PP_PROXY2(_H2PP_TH, 21, (__VA_ARGS__, , , , , , , , , , , , , , , , , , , , , , ))";
  (* h2_macro.in.hpp:89 *) str "H2PP_TH22(...) H2PP_PROXY2(_H2PP_TH, 22, (__VA_ARGS__, , , , , , , , , , , , , , , , , , , , , , , ))";
  (* h2_macro.in.hpp:90 *) str "H2PP_TH23(...) H2PP_PROXY2(_H2PP_TH, 23, (__VA_ARGS__, , , , , , , , , , , , , , , , , , , , , , , , ))";
  (* h2_macro.in.hpp:91 *) str "H2PP_TH24(...) H2PP_PROXY2(_H2PP_TH, 24, (__VA_ARGS__, , , , , , , , , , , , , , , , , , , , , , , , , ))";
  (* h2_macro.in.hpp:92 *) str "H2PP_TH25(...) H2PP_PROXY2(_H2PP_TH, 25, (__VA_ARGS__, , , , , , , , , , , , , , , , , , , , , , , , , , ))";
  (* h2_macro.in.hpp:93 *) str "H2PP_TH26(...) H2PP_PROXY2(_H2PP_TH, 26, (__VA_ARGS__, , , , , , , , , , , , , , , , , , , , , , , , , , , ))";
  (* h2_macro.in.hpp:94 *) str "H2PP_TH27(...) H2PP_PROXY2(_H2PP_TH, 27, (__VA_ARGS__, , , , , , , , , , , , , , , , , , , , , , , , , , , , ))";
  (* h2_macro.in.hpp:95 *) str "H2PP_TH28(...) H2PP_PROXY2(_H2PP_TH, 28, (__VA_ARGS__, , , , , , , , , , , , , , , , , , , , , , , , , , , , , ))";
  (* h2_macro.in.hpp:96 *) str "H2PP_TH29(...) H2PP_PROXY2(_H2PP_TH, 29, (__VA_ARGS__, , , , , , , , , , , , , , , , , , , , , , , , , , , , , , ))";
  (* h2_macro.in.hpp:97 *) str "H2PP_TH30(...) H2PP_PROXY2(_H2PP_TH, 30, (__VA_ARGS__, , , , , , , , , , , , , , , , , , , , , , , , , , , , , , , ))";
  (* h2_macro.in.hpp:98 *) str "H2PP_TH31(...) H2PP_PROXY2(_H2PP_TH, 31, (__VA_ARGS__, , , , , , , , , , , , , , , , , , , , , , , , , , , , , , , , ))";
  (* h2_macro.in.hpp:100 *) str "H2PP_INC_0 1";
  (* h2_macro.in.hpp:101 *) str "H2PP_INC_1 2";
  (* h2_macro.in.hpp:102 *) str "H2PP_INC_2 3";
  (* h2_macro.in.hpp:103 *) str "H2PP_INC_3 4";
  (* h2_macro.in.hpp:104 *) str "H2PP_INC_4 5";
  (* h2_macro.in.hpp:105 *) str "H2PP_INC_5 6";
  (* h2_macro.in.hpp:106 *) str "H2PP_INC_6 7";
  (* h2_macro.in.hpp:107 *) str "H2PP_INC_7 8";
  (* h2_macro.in.hpp:108 *) str "H2PP_INC_8 9";
  (* h2_macro.in.hpp:109 *) str "H2PP_INC_9 10";
  (* h2_macro.in.hpp:110 *) str "H2PP_INC_10 11";
  (* h2_macro.in.hpp:111 *) str "H2PP_INC_11 12";
  (* h2_macro.in.hpp:112 *) str "H2PP_INC_12 13";
  (* h2_macro.in.hpp:113 *) str "H2PP_INC_13 14";
  (* h2_macro.in.hpp:114 *) str "H2PP_INC_14 15";
  (* h2_macro.in.hpp:115 *) str "H2PP_INC_15 16";
  (* h2_macro.in.hpp:116 *) str "H2PP_INC_16 17";
  (* h2_macro.in.hpp:117 *) str "H2PP_INC_17 18";
  (* h2_macro.in.hpp:118 *) str "H2PP_INC_18 19";
  (* h2_macro.in.hpp:119 *) str "H2PP_INC_19 20";
  (* h2_macro.in.hpp:120 *) str "H2PP_INC_20 21";
  (* h2_macro.in.hpp:121 *) str "H2PP_INC_21 22";
  (* h2_macro.in.hpp:122 *) str "H2PP_INC_22 23";
  (* h2_macro.in.hpp:123 *) str "H2PP_INC_23 24";
  (* h2_macro.in.hpp:124 *) str "H2PP_INC_24 25";
  (* h2_macro.in.hpp:125 *) str "H2PP_INC_25 26";
  (* h2_macro.in.hpp:126 *) str "H2PP_INC_26 27";
  (* h2_macro.in.hpp:127 *) str "H2PP_INC_27 28";
  (* h2_macro.in.hpp:128 *) str "H2PP_INC_28 29";
  (* h2_macro.in.hpp:129 *) str "H2PP_INC_29 30";
  (* h2_macro.in.hpp:130 *) str "H2PP_INC_30 31";
  (* h2_macro.in.hpp:131 *) str "H2PP_INC_31 32";
  (* h2_macro.in.hpp:132 *) str "H2PP_DEC_1 0";
  (* h2_macro.in.hpp:133 *) str "H2PP_DEC_2 1";
  (* h2_macro.in.hpp:134 *) str "H2PP_DEC_3 2";
  (* h2_macro.in.hpp:135 *) str "H2PP_DEC_4 3";
  (* h2_macro.in.hpp:136 *) str "H2PP_DEC_5 4";
  (* h2_macro.in.hpp:137 *) str "H2PP_DEC_6 5";
  (* h2_macro.in.hpp:138 *) str "H2PP_DEC_7 6";
  (* h2_macro.in.hpp:139 *) str "H2PP_DEC_8 7";
  (* h2_macro.in.hpp:140 *) str "H2PP_DEC_9 8";
  (* h2_macro.in.hpp:141 *) str "H2PP_DEC_10 9";
  (* h2_macro.in.hpp:142 *) str "H2PP_DEC_11 10";
  (* h2_macro.in.hpp:143 *) str "H2PP_DEC_12 11";
  (* h2_macro.in.hpp:144 *) str "H2PP_DEC_13 12";
  (* h2_macro.in.hpp:145 *) str "H2PP_DEC_14 13";
  (* h2_macro.in.hpp:146 *) str "H2PP_DEC_15 14";
  (* h2_macro.in.hpp:147 *) str "H2PP_DEC_16 15";
  (* h2_macro.in.hpp:148 *) str "H2PP_DEC_17 16";
  (* h2_macro.in.hpp:149 *) str "H2PP_DEC_18 17";
  (* h2_macro.in.hpp:150 *) str "H2PP_DEC_19 18";
  (* h2_macro.in.hpp:151 *) str "H2PP_DEC_20 19";
  (* h2_macro.in.hpp:152 *) str "H2PP_DEC_21 20";
  (* h2_macro.in.hpp:153 *) str "H2PP_DEC_22 21";
  (* h2_macro.in.hpp:154 *) str "H2PP_DEC_23 22";
  (* h2_macro.in.hpp:155 *) str "H2PP_DEC_24 23";
  (* h2_macro.in.hpp:156 *) str "H2PP_DEC_25 24";
  (* h2_macro.in.hpp:157 *) str "H2PP_DEC_26 25";
  (* h2_macro.in.hpp:158 *) str "H2PP_DEC_27 26";
  (* h2_macro.in.hpp:159 *) str "H2PP_DEC_28 27";
  (* h2_macro.in.hpp:160 *) str "H2PP_DEC_29 28";
  (* h2_macro.in.hpp:161 *) str "H2PP_DEC_30 29";
  (* h2_macro.in.hpp:162 *) str "H2PP_DEC_31 30";
  (* h2_macro.in.hpp:163 *) str "H2PP_DEC_32 31";
  (* h2_macro.in.hpp:165 *) str "_H2PP_EVAL_128(...) _H2PP_EVAL_64(_H2PP_EVAL_64(__VA_ARGS__))";
  (* h2_macro.in.hpp:166 *) str "_H2PP_EVAL_64(...) _H2PP_EVAL_32(_H2PP_EVAL_32(__VA_ARGS__))";
  (* h2_macro.in.hpp:167 *) str "_H2PP_EVAL_32(...) _H2PP_EVAL_16(_H2PP_EVAL_16(__VA_ARGS__))";
  (* h2_macro.in.hpp:168 *) str "_H2PP_EVAL_16(...) _H2PP_EVAL_8(_H2PP_EVAL_8(__VA_ARGS__))";
  (* h2_macro.in.hpp:169 *) str "_H2PP_EVAL_8(...) _H2PP_EVAL_4(_H2PP_EVAL_4(__VA_ARGS__))";
  (* h2_macro.in.hpp:170 *) str "_H2PP_EVAL_4(...) _H2PP_EVAL_2(_H2PP_EVAL_2(__VA_ARGS__))";
  (* h2_macro.in.hpp:171 *) str "_H2PP_EVAL_2(...) _H2PP_EVAL_1(_H2PP_EVAL_1(__VA_ARGS__))";
  (* h2_macro.in.hpp:172 *) str "_H2PP_EVAL_1(...) __VA_ARGS__";
  (* h2_macro.in.hpp:174 *) str "_H2PP_64TH(_0, _1, _2, _3, _4, _5, _6, _7, _8, _9, _10, _11, _12, _13, _14, _15, _16, _17, _18, _19, _20, _21, _22, _23, _24, _25, _26, _27, _28, _29, _30, _31, _32, _33, _34, _35, _36, _37, _38, _39, _40, _41, _42, _43, _44, _45, _46, _47, _48, _49, _50, _51, _52, _53, _54, _55, _56, _57, _58, _59, _60, _61, _62, _63, _64, ...) _64";
  (* h2_macro.in.hpp:175 *) str "H2PP_HAS_COMMA(...) H2PP_PROXY(_H2PP_64TH, (__VA_ARGS__, 1, 1, 1, 1, 1, 1, 1, 1, 1, 1, 1, 1, 1, 1, 1, 1, 1, 1, 1, 1, 1, 1, 1, 1, 1, 1, 1, 1, 1, 1, 1, 1, 1, 1, 1, 1, 1, 1, 1, 1, 1, 1, 1, 1, 1, 1, 1, 1, 1, 1, 1, 1, 1, 1, 1, 1, 1, 1, 1, 1, 1, 1, 1, 0))";
  (* h2_macro.in.hpp:176 *) str "H2PP_ARG_COUNT(...) H2PP_PROXY(_H2PP_64TH, (__VA_ARGS__, 64, 63, 62, 61, 60, 59, 58, 57, 56, 55, 54, 53, 52, 51, 50, 49, 48, 47, 46, 45, 44, 43, 42, 41, 40, 39, 38, 37, 36, 35, 34, 33, 32, 31, 30, 29, 28, 27, 26, 25, 24, 23, 22, 21, 20, 19, 18, 17, 16, 15, 14, 13, 12, 11, 10, 9, 8, 7, 6, 5, 4, 3, 2, 1))"].

(** the macros for cases over values (source/core/h2_core.hpp:39-124) *)
Definition core_text : list bytes := [
  (* h2_core.hpp:39 *) str "H2_An(...) H2PP_EVAL(_H2_An(__VA_ARGS__))";
  (* h2_core.hpp:40 *) str "_H2_An(...) H2PP_CAT2(_H2_An1_, H2PP_IS_EMPTY(__VA_ARGS__)) ((__VA_ARGS__))";
  (* h2_core.hpp:41 *) str "_H2_An1_1(...) 0";
  (* h2_core.hpp:42 *) str "_H2_An1_0(MSVC_Workaround) _H2_An1 MSVC_Workaround";
  (* h2_core.hpp:43 *) str "_H2_An1(a, ...) H2PP_CAT2(_H2_An2_, H2PP_IS_PARENTHESIS(a)) (a)";
  (* h2_core.hpp:44 *) str "_H2_An2_0(a) a";
  (* h2_core.hpp:45 *) str "_H2_An2_1(a) H2PP_DEFER(_H2_An2)() a";
  (* h2_core.hpp:46 *) str "_H2_An2() _H2_An";
  (* h2_core.hpp:48 *) str "H2_XAn(...) H2_An(H2PP_HEAD(__VA_ARGS__))";
  (* h2_core.hpp:49 *) str "H2_YAn(...) H2_An(H2PP_LAST(__VA_ARGS__))";
  (* h2_core.hpp:53-56 *) str "__H2CASES1(case_test, case_prefix, ...) template <typename T> static void case_test(T x); H2PP_FOREACH(, __H2CASES_Callback, (case_test, case_prefix), H2PP_REMOVE_PARENTHESES_IF(__VA_ARGS__)); template <typename T> static void case_test(T x)";
  (* h2_core.hpp:57-58 *) str "__H2CASES2(case_test, case_prefix, i, x) H2CASE(case_prefix i. x) { case_test(x); }";
  (* h2_core.hpp:59 *) str "__H2CASES_Callback(Pack, i, x) H2PP_PROXY(__H2CASES2, (H2PP_REMOVE_PARENTHESES(Pack), i, x))";
  (* h2_core.hpp:62-65 *) str "__H2CASESS1(case_test, case_prefix, ...) template <typename Tx, typename Ty> static void case_test(Tx x, Ty y); H2PP_FULLMESH(, __H2CASESS_Callback, (case_test, case_prefix), __VA_ARGS__); template <typename Tx, typename Ty> static void case_test(Tx x, Ty y)";
  (* h2_core.hpp:66-67 *) str "__H2CASESS2(case_test, case_prefix, i, j, x, y) H2CASE(case_prefix i.j. x, y) { case_test(x, y); }";
  (* h2_core.hpp:68 *) str "__H2CASESS_Callback(Pack, i, j, x, y) H2PP_PROXY(__H2CASESS2, (H2PP_REMOVE_PARENTHESES(Pack), i, j, x, y))";
  (* h2_core.hpp:109-112 *) str "__H2CASES_T1(case_test, case_prefix, ...) template <typename x> static void case_test(); H2PP_FOREACH(, __H2CASES_T_Callback, (case_test, case_prefix), H2PP_REMOVE_PARENTHESES_IF(__VA_ARGS__)); template <typename x> static void case_test()";
  (* h2_core.hpp:113-114 *) str "__H2CASES_T2(case_test, case_prefix, i, x) H2CASE(case_prefix i. x) { case_test<x>(); }";
  (* h2_core.hpp:115 *) str "__H2CASES_T_Callback(Pack, i, x) H2PP_PROXY(__H2CASES_T2, (H2PP_REMOVE_PARENTHESES(Pack), i, x))";
  (* h2_core.hpp:118-121 *) str "__H2CASESS_T1(case_test, case_prefix, ...) template <typename x, typename y> static void case_test(); H2PP_FULLMESH(, __H2CASESS_T_Callback, (case_test, case_prefix), __VA_ARGS__); template <typename x, typename y> static void case_test()";
  (* h2_core.hpp:122-123 *) str "__H2CASESS_T2(case_test, case_prefix, i, j, x, y) H2CASE(case_prefix i.j. x, y) { case_test<x, y>(); }";
  (* h2_core.hpp:124 *) str "__H2CASESS_T_Callback(Pack, i, j, x, y) H2PP_PROXY(__H2CASESS_T2, (H2PP_REMOVE_PARENTHESES(Pack), i, j, x, y))"].

(** Foreach and Fullmesh (source/utils/h2_misc.hpp:17-21) *)
Definition misc_text : list bytes := [
  (* h2_misc.hpp:17 *) str "H2Foreach(Callback_x, ...) H2PP_FOREACH(, _H2ForeachMacro, (Callback_x), H2PP_REMOVE_PARENTHESES_IF(__VA_ARGS__))";
  (* h2_misc.hpp:18 *) str "_H2ForeachMacro(_Args, i, x) H2PP_REMOVE_PARENTHESES(_Args)(x)";
  (* h2_misc.hpp:20 *) str "H2Fullmesh(Callback_x_y, ...) H2PP_FULLMESH(, _H2FullmeshMacro, (Callback_x_y), __VA_ARGS__)";
  (* h2_misc.hpp:21 *) str "_H2FullmeshMacro(_Args, i, j, x, y) H2PP_REMOVE_PARENTHESES(_Args)(x, y)"].

(** macros that choose among others by the number of their arguments (source/mock/h2_mock.hpp:4, 12; source/stub/h2_stub.hpp:5, 11, 20, 26; source/except/h2_exception.hpp:64; source/matcher/h2_matcher_customize.hpp:104; source/net/h2_dns.hpp:11) *)
Definition dispatch_text : list bytes := [
  (* source/mock/h2_mock.hpp:4 *) str "H2MOCK(...) H2PP_VCALL(H2MOCK_, __VA_ARGS__)";
  (* source/mock/h2_mock.hpp:12 *) str "H2MOCKS(...) H2PP_VCALL(H2MOCKS_, __VA_ARGS__)";
  (* source/stub/h2_stub.hpp:5 *) str "H2STUB(...) H2PP_VCALL(H2STUB_, __VA_ARGS__)";
  (* source/stub/h2_stub.hpp:11 *) str "H2UNSTUB(...) H2PP_VCALL(H2UNSTUB_, __VA_ARGS__)";
  (* source/stub/h2_stub.hpp:20 *) str "H2UNSTUBS(...) H2PP_VCALL(H2UNSTUBS_, __VA_ARGS__)";
  (* source/stub/h2_stub.hpp:26 *) str "H2STUBS(...) H2PP_VCALL(H2STUBS_, __VA_ARGS__)";
  (* source/except/h2_exception.hpp:64 *) str "H2Catch(...) H2PP_VCALL(H2Catch_, __VA_ARGS__) if (!::setjmp(h2::h2_exception::I().catch_hole))";
  (* source/matcher/h2_matcher_customize.hpp:104 *) str "H2MATCHER(...) H2PP_VCALL(H2MATCHER_, __VA_ARGS__)";
  (* source/net/h2_dns.hpp:11 *) str "H2DNS(...) h2::h2_dns::setaddrinfo(H2PP_NARG(__VA_ARGS__), __VA_ARGS__)"].

(** how MATCHER tells a message from a parameter (source/matcher/h2_matcher_customize.hpp:78-102); H2MATCHER0 to H2MATCHER5 (15-76), which
    declare the matcher, are left as they are written *)
Definition custom_text : list bytes := [
  (* source/matcher/h2_matcher_customize.hpp:78 *) str "H2MATCHER_1(name) H2MATCHER0(name, (""""))";
  (* source/matcher/h2_matcher_customize.hpp:80 *) str "H2MATCHER_2(name, t) H2PP_CAT(H2MATCHER_2_, H2PP_IS_PARENTHESIS(t))(name, t)";
  (* source/matcher/h2_matcher_customize.hpp:81 *) str "H2MATCHER_2_0(name, e1) H2MATCHER1(name, e1, (""""))";
  (* source/matcher/h2_matcher_customize.hpp:82 *) str "H2MATCHER_2_1(name, message) H2MATCHER0(name, message)";
  (* source/matcher/h2_matcher_customize.hpp:84 *) str "H2MATCHER_3(name, e1, t) H2PP_CAT(H2MATCHER_3_, H2PP_IS_PARENTHESIS(t))(name, e1, t)";
  (* source/matcher/h2_matcher_customize.hpp:85 *) str "H2MATCHER_3_0(name, e1, e2) H2MATCHER2(name, e1, e2, (""""))";
  (* source/matcher/h2_matcher_customize.hpp:86 *) str "H2MATCHER_3_1(name, e1, message) H2MATCHER1(name, e1, message)";
  (* source/matcher/h2_matcher_customize.hpp:88 *) str "H2MATCHER_4(name, e1, e2, t) H2PP_CAT(H2MATCHER_4_, H2PP_IS_PARENTHESIS(t))(name, e1, e2, t)";
  (* source/matcher/h2_matcher_customize.hpp:89 *) str "H2MATCHER_4_0(name, e1, e2, e3) H2MATCHER3(name, e1, e2, e3, (""""))";
  (* source/matcher/h2_matcher_customize.hpp:90 *) str "H2MATCHER_4_1(name, e1, e2, message) H2MATCHER2(name, e1, e2, message)";
  (* source/matcher/h2_matcher_customize.hpp:92 *) str "H2MATCHER_5(name, e1, e2, e3, t) H2PP_CAT(H2MATCHER_5_, H2PP_IS_PARENTHESIS(t))(name, e1, e2, e3, t)";
  (* source/matcher/h2_matcher_customize.hpp:93 *) str "H2MATCHER_5_0(name, e1, e2, e3, e4) H2MATCHER4(name, e1, e2, e3, e4, (""""))";
  (* source/matcher/h2_matcher_customize.hpp:94 *) str "H2MATCHER_5_1(name, e1, e2, e3, message) H2MATCHER3(name, e1, e2, e3, message)";
  (* source/matcher/h2_matcher_customize.hpp:96 *) str "H2MATCHER_6(name, e1, e2, e3, e4, t) H2PP_CAT(H2MATCHER_6_, H2PP_IS_PARENTHESIS(t))(name, e1, e2, e3, e4, t)";
  (* source/matcher/h2_matcher_customize.hpp:97 *) str "H2MATCHER_6_0(name, e1, e2, e3, e4, e5) H2MATCHER5(name, e1, e2, e3, e4, e5, (""""))";
  (* source/matcher/h2_matcher_customize.hpp:98 *) str "H2MATCHER_6_1(name, e1, e2, e3, e4, message) H2MATCHER4(name, e1, e2, e3, e4, message)";
  (* source/matcher/h2_matcher_customize.hpp:100 *) str "H2MATCHER_7(name, e1, e2, e3, e4, e5, t) H2PP_CAT(H2MATCHER_7_, H2PP_IS_PARENTHESIS(t))(name, e1, e2, e3, e4, e5, t)";
  (* source/matcher/h2_matcher_customize.hpp:101 *) str "H2MATCHER_7_0(name, e1, e2, e3, e4, e5, e6)";
  (* source/matcher/h2_matcher_customize.hpp:102 *) str "H2MATCHER_7_1(name, e1, e2, e3, e4, e5, message) H2MATCHER5(name, e1, e2, e3, e4, e5, message)"].

(** Member (source/matcher/h2_matches_member.hpp:78-86) *)
Definition member_text : list bytes := [
  (* source/matcher/h2_matches_member.hpp:78 *) str "H2Member(expect, member, ...) H2PP_RESCAN(H2PP_CAT2(H2Member_, H2PP_IS_EMPTY(__VA_ARGS__))(expect, member, __VA_ARGS__))";
  (* source/matcher/h2_matches_member.hpp:79 *) str "H2Member_1(expect, member, ...) h2::Member_member(expect, member)";
  (* source/matcher/h2_matches_member.hpp:81 *) str "H2Member_0(...) H2PP_NCALL(H2Member_0_, 3, __VA_ARGS__)";
  (* source/matcher/h2_matches_member.hpp:82 *) str "H2Member_0_0(expect, member, ...) h2::Member_method(expect, h2::mfp<H2PP_FOREACH((, ), __H2MfpDecay, , __VA_ARGS__)>::get(member), std::tuple<H2PP_FOREACH((, ), __H2MfpDecay, , __VA_ARGS__)>(__VA_ARGS__))";
  (* source/matcher/h2_matches_member.hpp:83 *) str "H2Member_0_1(expect, member, ...) H2PP_RESCAN(H2PP_CAT2(H2Member_0_1_, H2PP_IS_PARENTHESIS(__VA_ARGS__))(expect, member, __VA_ARGS__))";
  (* source/matcher/h2_matches_member.hpp:84 *) str "H2Member_0_1_0(expect, member, ...) h2::Member_method(expect, h2::mfp<H2PP_FOREACH((, ), __H2MfpDecay, , __VA_ARGS__)>::get(member), std::tuple<H2PP_FOREACH((, ), __H2MfpDecay, , __VA_ARGS__)>(__VA_ARGS__))";
  (* source/matcher/h2_matches_member.hpp:85 *) str "H2Member_0_1_1(expect, member, ...) h2::Member_method(expect, h2::mfp<H2PP_FOREACH((, ), __H2MfpDecay, , H2PP_REMOVE_PARENTHESES(__VA_ARGS__))>::get(member), std::tuple<H2PP_FOREACH((, ), __H2MfpDecay, , H2PP_REMOVE_PARENTHESES(__VA_ARGS__))> __VA_ARGS__)";
  (* source/matcher/h2_matches_member.hpp:86 *) str "__H2MfpDecay(Dummy, i, x) h2::mfp_decay<decltype(x)>::type"].

(** what STUB, UNSTUB, UNSTUBS and STUBS become for a function, a method and an object (source/stub/h2_stub.hpp:6-9, 12-15, 21-24, 27-33); simplified: the
    spelling of an argument as a string literal, #x, is written H2_SPELLED(x); __COUNTER__ and H2_FILINE are left as they are written *)
Definition stub_text : list bytes := [
  (* source/stub/h2_stub.hpp:6 *) str "H2STUB_2(Source, Destination) h2::h2_runner::stub(h2::h2_fp<>::get(Source), (void*)Destination, H2_SPELLED(Source), H2_FILINE)";
  (* source/stub/h2_stub.hpp:7 *) str "H2STUB_3(Function, Signature, Destination) h2::h2_runner::stub(h2::h2_fp<H2PP_REMOVE_PARENTHESES_IF(Signature)>::get(H2PP_REMOVE_PARENTHESES_IF(Function)), (void*)(Destination), H2_SPELLED(Function), H2_FILINE)";
  (* source/stub/h2_stub.hpp:8 *) str "H2STUB_4(Class, Method, Signature, Destination) h2::h2_stuber<__COUNTER__, H2PP_REMOVE_PARENTHESES_IF(Class), H2PP_REMOVE_PARENTHESES_IF(Signature)>::I(h2::h2_fp<H2PP_REMOVE_PARENTHESES_IF(Class), H2PP_REMOVE_PARENTHESES_IF(Signature)>::get(&H2PP_REMOVE_PARENTHESES_IF(Class)::H2PP_REMOVE_PARENTHESES_IF(Method)), H2_SPELLED(Class) ""::"" H2_SPELLED(Method), H2_FILINE) = Destination";
  (* source/stub/h2_stub.hpp:9 *) str "H2STUB_5(Object, Class, Method, Signature, Destination) h2::h2_stuber<__COUNTER__, H2PP_REMOVE_PARENTHESES_IF(Class), H2PP_REMOVE_PARENTHESES_IF(Signature)>::I(h2::h2_fp<H2PP_REMOVE_PARENTHESES_IF(Class), H2PP_REMOVE_PARENTHESES_IF(Signature)>::get(h2::h2_pointer_if(Object), &H2PP_REMOVE_PARENTHESES_IF(Class)::H2PP_REMOVE_PARENTHESES_IF(Method)), H2_SPELLED(Class) ""::"" H2_SPELLED(Method), H2_FILINE) = Destination";
  (* source/stub/h2_stub.hpp:12 *) str "H2UNSTUB_1(Source) h2::h2_runner::unstub(h2::h2_fp<>::get(Source))";
  (* source/stub/h2_stub.hpp:13 *) str "H2UNSTUB_2(Function, Signature) h2::h2_runner::unstub(h2::h2_fp<H2PP_REMOVE_PARENTHESES_IF(Signature)>::get(H2PP_REMOVE_PARENTHESES_IF(Function)))";
  (* source/stub/h2_stub.hpp:14 *) str "H2UNSTUB_3(Class, Method, Signature) h2::h2_runner::unstub(h2::h2_fp<H2PP_REMOVE_PARENTHESES_IF(Class), H2PP_REMOVE_PARENTHESES_IF(Signature)>::get(&H2PP_REMOVE_PARENTHESES_IF(Class)::H2PP_REMOVE_PARENTHESES_IF(Method)))";
  (* source/stub/h2_stub.hpp:15 *) str "H2UNSTUB_4(Object, Class, Method, Signature) h2::h2_runner::unstub(h2::h2_fp<H2PP_REMOVE_PARENTHESES_IF(Class), H2PP_REMOVE_PARENTHESES_IF(Signature)>::get(h2::h2_pointer_if(Object), &H2PP_REMOVE_PARENTHESES_IF(Class)::H2PP_REMOVE_PARENTHESES_IF(Method)))";
  (* source/stub/h2_stub.hpp:21 *) str "H2UNSTUBS_1(Source) h2::h2_runner::unstub(h2::h2_fp<>::get(Source))";
  (* source/stub/h2_stub.hpp:22 *) str "H2UNSTUBS_3(Function, ReturnType, Args) h2::h2_runner::unstub(h2::h2_fp<H2PP_REMOVE_PARENTHESES_IF(ReturnType) Args>::get(H2PP_REMOVE_PARENTHESES_IF(Function)))";
  (* source/stub/h2_stub.hpp:23 *) str "H2UNSTUBS_4(Class, Method, ReturnType, Args) h2::h2_runner::unstub(h2::h2_fp<H2PP_REMOVE_PARENTHESES_IF(Class), H2PP_REMOVE_PARENTHESES_IF(ReturnType) Args>::get(&H2PP_REMOVE_PARENTHESES_IF(Class)::H2PP_REMOVE_PARENTHESES_IF(Method)))";
  (* source/stub/h2_stub.hpp:24 *) str "H2UNSTUBS_5(Object, Class, Method, ReturnType, Args) h2::h2_runner::unstub(h2::h2_fp<H2PP_REMOVE_PARENTHESES_IF(Class), H2PP_REMOVE_PARENTHESES_IF(ReturnType) Args>::get(h2::h2_pointer_if(Object), &H2PP_REMOVE_PARENTHESES_IF(Class)::H2PP_REMOVE_PARENTHESES_IF(Method)))";
  (* source/stub/h2_stub.hpp:27 *) str "H2STUBS_3(Function, ReturnType, Args) h2::h2_stuber<__COUNTER__, std::false_type, H2PP_REMOVE_PARENTHESES_IF(ReturnType) Args>::I(h2::h2_fp<H2PP_REMOVE_PARENTHESES_IF(ReturnType) Args>::get(H2PP_REMOVE_PARENTHESES_IF(Function)), H2_SPELLED(Function), H2_FILINE) = [] Args -> ReturnType";
  (* source/stub/h2_stub.hpp:28 *) str "H2STUBS_4(Class, Method, ReturnType, Args) H2PP_CAT(H2STUBS_4_, H2PP_IS_EMPTY Args)(Class, Method, ReturnType, Args)";
  (* source/stub/h2_stub.hpp:29 *) str "H2STUBS_4_0(Class, Method, ReturnType, Args) h2::h2_stuber<__COUNTER__, H2PP_REMOVE_PARENTHESES_IF(Class), H2PP_REMOVE_PARENTHESES_IF(ReturnType) Args>::I(h2::h2_fp<H2PP_REMOVE_PARENTHESES_IF(Class), H2PP_REMOVE_PARENTHESES_IF(ReturnType) Args>::get(&H2PP_REMOVE_PARENTHESES_IF(Class)::H2PP_REMOVE_PARENTHESES_IF(Method)), H2_SPELLED(Class) ""::"" H2_SPELLED(Method), H2_FILINE) = [](H2PP_REMOVE_PARENTHESES_IF(Class) * This, H2PP_REMOVE_PARENTHESES(Args)) -> H2PP_REMOVE_PARENTHESES_IF(ReturnType)";
  (* source/stub/h2_stub.hpp:30 *) str "H2STUBS_4_1(Class, Method, ReturnType, Args) h2::h2_stuber<__COUNTER__, H2PP_REMOVE_PARENTHESES_IF(Class), H2PP_REMOVE_PARENTHESES_IF(ReturnType) Args>::I(h2::h2_fp<H2PP_REMOVE_PARENTHESES_IF(Class), H2PP_REMOVE_PARENTHESES_IF(ReturnType) Args>::get(&H2PP_REMOVE_PARENTHESES_IF(Class)::H2PP_REMOVE_PARENTHESES_IF(Method)), H2_SPELLED(Class) ""::"" H2_SPELLED(Method), H2_FILINE) = [](H2PP_REMOVE_PARENTHESES_IF(Class) * This) -> H2PP_REMOVE_PARENTHESES_IF(ReturnType)";
  (* source/stub/h2_stub.hpp:31 *) str "H2STUBS_5(Object, Class, Method, ReturnType, Args) H2PP_CAT(H2STUBS_5_, H2PP_IS_EMPTY Args)(Object, Class, Method, ReturnType, Args)";
  (* source/stub/h2_stub.hpp:32 *) str "H2STUBS_5_0(Object, Class, Method, ReturnType, Args) h2::h2_stuber<__COUNTER__, H2PP_REMOVE_PARENTHESES_IF(Class), H2PP_REMOVE_PARENTHESES_IF(ReturnType) Args>::I(h2::h2_fp<H2PP_REMOVE_PARENTHESES_IF(Class), H2PP_REMOVE_PARENTHESES_IF(ReturnType) Args>::get(h2::h2_pointer_if(Object), &H2PP_REMOVE_PARENTHESES_IF(Class)::H2PP_REMOVE_PARENTHESES_IF(Method)), H2_SPELLED(Class) ""::"" H2_SPELLED(Method), H2_FILINE) = [](H2PP_REMOVE_PARENTHESES_IF(Class) * This, H2PP_REMOVE_PARENTHESES(Args)) -> H2PP_REMOVE_PARENTHESES_IF(ReturnType)";
  (* source/stub/h2_stub.hpp:33 *) str "H2STUBS_5_1(Object, Class, Method, ReturnType, Args) h2::h2_stuber<__COUNTER__, H2PP_REMOVE_PARENTHESES_IF(Class), H2PP_REMOVE_PARENTHESES_IF(ReturnType) Args>::I(h2::h2_fp<H2PP_REMOVE_PARENTHESES_IF(Class), H2PP_REMOVE_PARENTHESES_IF(ReturnType) Args>::get(h2::h2_pointer_if(Object), &H2PP_REMOVE_PARENTHESES_IF(Class)::H2PP_REMOVE_PARENTHESES_IF(Method)), H2_SPELLED(Class) ""::"" H2_SPELLED(Method), H2_FILINE) = [](H2PP_REMOVE_PARENTHESES_IF(Class) * This) -> H2PP_REMOVE_PARENTHESES_IF(ReturnType)"].

(** what MOCK and MOCKS become for a function, a method and an object (source/mock/h2_mock.hpp:5-7, 13-19); simplified as stub_text *)
Definition mock_text : list bytes := [
  (* source/mock/h2_mock.hpp:5 *) str "H2MOCK_2(Function, Signature) h2::h2_mocker<__COUNTER__, std::false_type, H2PP_REMOVE_PARENTHESES_IF(Signature)>::I(h2::h2_fp<H2PP_REMOVE_PARENTHESES_IF(Signature)>::get(Function), H2_SPELLED(Function), H2_FILINE)";
  (* source/mock/h2_mock.hpp:6 *) str "H2MOCK_3(Class, Method, Signature) h2::h2_mocker<__COUNTER__, H2PP_REMOVE_PARENTHESES_IF(Class), H2PP_REMOVE_PARENTHESES_IF(Signature)>::I(h2::h2_fp<H2PP_REMOVE_PARENTHESES_IF(Class), H2PP_REMOVE_PARENTHESES_IF(Signature)>::get(&H2PP_REMOVE_PARENTHESES_IF(Class)::H2PP_REMOVE_PARENTHESES_IF(Method)), H2_SPELLED(Class) ""::"" H2_SPELLED(Method), H2_FILINE)";
  (* source/mock/h2_mock.hpp:7 *) str "H2MOCK_4(Object, Class, Method, Signature) h2::h2_mocker<__COUNTER__, H2PP_REMOVE_PARENTHESES_IF(Class), H2PP_REMOVE_PARENTHESES_IF(Signature)>::I(h2::h2_fp<H2PP_REMOVE_PARENTHESES_IF(Class), H2PP_REMOVE_PARENTHESES_IF(Signature)>::get(h2::h2_pointer_if(Object), &H2PP_REMOVE_PARENTHESES_IF(Class)::H2PP_REMOVE_PARENTHESES_IF(Method)), H2_SPELLED(Class) ""::"" H2_SPELLED(Method), H2_FILINE)";
  (* source/mock/h2_mock.hpp:13 *) str "H2MOCKS_4(Function, ReturnType, Args, Inspection) h2::h2_mocker<__COUNTER__, std::false_type, H2PP_REMOVE_PARENTHESES_IF(ReturnType) Args>::I(h2::h2_fp<H2PP_REMOVE_PARENTHESES_IF(ReturnType) Args>::get(Function), H2_SPELLED(Function), H2_FILINE).Inspection = [] Args -> H2PP_REMOVE_PARENTHESES_IF(ReturnType)";
  (* source/mock/h2_mock.hpp:14 *) str "H2MOCKS_5(Class, Method, ReturnType, Args, Inspection) H2PP_CAT(H2MOCKS_5_, H2PP_IS_EMPTY Args)(Class, Method, ReturnType, Args, Inspection)";
  (* source/mock/h2_mock.hpp:15 *) str "H2MOCKS_5_0(Class, Method, ReturnType, Args, Inspection) h2::h2_mocker<__COUNTER__, H2PP_REMOVE_PARENTHESES_IF(Class), H2PP_REMOVE_PARENTHESES_IF(ReturnType) Args>::I(h2::h2_fp<H2PP_REMOVE_PARENTHESES_IF(Class), H2PP_REMOVE_PARENTHESES_IF(ReturnType) Args>::get(&H2PP_REMOVE_PARENTHESES_IF(Class)::H2PP_REMOVE_PARENTHESES_IF(Method)), H2_SPELLED(Class) ""::"" H2_SPELLED(Method), H2_FILINE).Inspection = [](H2PP_REMOVE_PARENTHESES_IF(Class) * This, H2PP_REMOVE_PARENTHESES(Args)) -> H2PP_REMOVE_PARENTHESES_IF(ReturnType)";
  (* source/mock/h2_mock.hpp:16 *) str "H2MOCKS_5_1(Class, Method, ReturnType, Args, Inspection) h2::h2_mocker<__COUNTER__, H2PP_REMOVE_PARENTHESES_IF(Class), H2PP_REMOVE_PARENTHESES_IF(ReturnType) Args>::I(h2::h2_fp<H2PP_REMOVE_PARENTHESES_IF(Class), H2PP_REMOVE_PARENTHESES_IF(ReturnType) Args>::get(&H2PP_REMOVE_PARENTHESES_IF(Class)::H2PP_REMOVE_PARENTHESES_IF(Method)), H2_SPELLED(Class) ""::"" H2_SPELLED(Method), H2_FILINE).Inspection = [](H2PP_REMOVE_PARENTHESES_IF(Class) * This) -> H2PP_REMOVE_PARENTHESES_IF(ReturnType)";
  (* source/mock/h2_mock.hpp:17 *) str "H2MOCKS_6(Object, Class, Method, ReturnType, Args, Inspection) H2PP_CAT(H2MOCKS_6_, H2PP_IS_EMPTY Args)(Object, Class, Method, ReturnType, Args, Inspection)";
  (* source/mock/h2_mock.hpp:18 *) str "H2MOCKS_6_0(Object, Class, Method, ReturnType, Args, Inspection) h2::h2_mocker<__COUNTER__, H2PP_REMOVE_PARENTHESES_IF(Class), H2PP_REMOVE_PARENTHESES_IF(ReturnType) Args>::I(h2::h2_fp<H2PP_REMOVE_PARENTHESES_IF(Class), H2PP_REMOVE_PARENTHESES_IF(ReturnType) Args>::get(h2::h2_pointer_if(Object), &H2PP_REMOVE_PARENTHESES_IF(Class)::H2PP_REMOVE_PARENTHESES_IF(Method)), H2_SPELLED(Class) ""::"" H2_SPELLED(Method), H2_FILINE).Inspection = [](H2PP_REMOVE_PARENTHESES_IF(Class) * This, H2PP_REMOVE_PARENTHESES(Args)) -> H2PP_REMOVE_PARENTHESES_IF(ReturnType)";
  (* source/mock/h2_mock.hpp:19 *) str "H2MOCKS_6_1(Object, Class, Method, ReturnType, Args, Inspection) h2::h2_mocker<__COUNTER__, H2PP_REMOVE_PARENTHESES_IF(Class), H2PP_REMOVE_PARENTHESES_IF(ReturnType) Args>::I(h2::h2_fp<H2PP_REMOVE_PARENTHESES_IF(Class), H2PP_REMOVE_PARENTHESES_IF(ReturnType) Args>::get(h2::h2_pointer_if(Object), &H2PP_REMOVE_PARENTHESES_IF(Class)::H2PP_REMOVE_PARENTHESES_IF(Method)), H2_SPELLED(Class) ""::"" H2_SPELLED(Method), H2_FILINE).Inspection = [](H2PP_REMOVE_PARENTHESES_IF(Class) * This) -> H2PP_REMOVE_PARENTHESES_IF(ReturnType)"].

(** what Catch becomes (source/except/h2_exception.hpp:60-62); H2_FILINE is left as it is written *)
Definition catch_text : list bytes := [
  (* source/except/h2_exception.hpp:60 *) str "H2Catch_0() for (auto _Q__ = h2::h2_exception::try_catch(); _Q__; h2::h2_exception::check_catch<nothrow>(_, H2_FILINE))";
  (* source/except/h2_exception.hpp:61 *) str "H2Catch_1(type) for (auto _Q__ = h2::h2_exception::try_catch(); _Q__; h2::h2_exception::check_catch<type>(_, H2_FILINE))";
  (* source/except/h2_exception.hpp:62 *) str "H2Catch_2(type, matcher) for (auto _Q__ = h2::h2_exception::try_catch(); _Q__; h2::h2_exception::check_catch<type>(matcher, H2_FILINE))"].

(** what OK, KO, JE, PF, Eq, Me, BLOCK, UNMEM, COUT and SOCK become (h2_assert.hpp:87-103, h2_timer.hpp:9-10, h2_matches_equation.hpp:174-176,
    h2_matches_memcmp.hpp:50-52, h2_memory.hpp:25-30, h2_stdio.hpp:9-10, h2_socket.hpp:56-57); simplified as stub_text, and the name that H2PP_UNIQUE() makes is left as it is written *)
Definition assert_text : list bytes := [
  (* source/assert/h2_assert.hpp:87 *) str "H2OK(_1, ...) H2PP_CAT(H2OK_, H2PP_IS_EMPTY(__VA_ARGS__))(H2PP_UNIQUE(), H2_SPELLED(_1), (H2_SPELLED(__VA_ARGS__)), _1, __VA_ARGS__)";
  (* source/assert/h2_assert.hpp:88-89 *) str "H2OK_1(Q, expression, _, actual, ...) for (h2::h2_assert Q(false); Q; Q.failing("""", expression, H2_FILINE)) h2::h2_ok1(&Q, h2::h2_0cp() > actual)";
  (* source/assert/h2_assert.hpp:90-91 *) str "H2OK_0(Q, e_expression, a_expression, expect, actual) for (h2::h2_assert Q(false); Q; Q.failing(e_expression, a_expression, H2_FILINE)) h2::h2_ok2(&Q, expect, actual, std::is_array<decltype(actual)>{}, std::extent<decltype(actual)>::value)";
  (* source/assert/h2_assert.hpp:93 *) str "H2KO(_1, ...) H2PP_CAT(H2KO_, H2PP_IS_EMPTY(__VA_ARGS__))(H2PP_UNIQUE(), H2_SPELLED(_1), (H2_SPELLED(__VA_ARGS__)), _1, __VA_ARGS__)";
  (* source/assert/h2_assert.hpp:94-95 *) str "H2KO_1(Q, expression, _, actual, ...) for (h2::h2_assert Q(true); Q; Q.failing("""", expression, H2_FILINE)) h2::h2_ok1(&Q, h2::h2_0cp() > actual)";
  (* source/assert/h2_assert.hpp:96-97 *) str "H2KO_0(Q, e_expression, a_expression, expect, actual) for (h2::h2_assert Q(true); Q; Q.failing(e_expression, a_expression, H2_FILINE)) h2::h2_ok2(&Q, expect, actual, std::is_array<decltype(actual)>{}, std::extent<decltype(actual)>::value)";
  (* source/assert/h2_assert.hpp:99 *) str "H2JE(...) H2PP_VCALL(H2JE_, H2PP_UNIQUE(), __VA_ARGS__)";
  (* source/assert/h2_assert.hpp:100-101 *) str "H2JE_3(Q, expect, actual) for (h2::h2_assert Q(false); Q; Q.failing(H2_SPELLED(expect), H2_SPELLED(actual), H2_FILINE)) h2::h2_je(&Q, expect, actual, """")";
  (* source/assert/h2_assert.hpp:102-103 *) str "H2JE_4(Q, expect, actual, selector) for (h2::h2_assert Q(false); Q; Q.failing(H2_SPELLED(expect), H2_SPELLED(actual), H2_FILINE)) h2::h2_je(&Q, expect, actual, selector)";
  (* source/assert/h2_timer.hpp:9 *) str "__H2PF(ms, Q) for (h2::h2_timer Q(ms, H2_FILINE); Q;)";
  (* source/assert/h2_timer.hpp:10 *) str "H2PF(ms) __H2PF(ms, H2PP_UNIQUE())";
  (* source/matcher/h2_matches_equation.hpp:174 *) str "H2Eq(expect, ...) H2PP_CAT(H2Eq_, H2PP_IS_EMPTY(__VA_ARGS__))(expect, __VA_ARGS__)";
  (* source/matcher/h2_matches_equation.hpp:175 *) str "H2Eq_1(expect, ...) h2::Equals(expect, 0)";
  (* source/matcher/h2_matches_equation.hpp:176 *) str "H2Eq_0(expect, ...) h2::Equals(expect, h2::h2_approximate() * __VA_ARGS__ + h2::h2_approximate::B)";
  (* source/matcher/h2_matches_memcmp.hpp:50 *) str "H2Me(buffer, ...) H2PP_CAT(H2Me_, H2PP_IS_EMPTY(__VA_ARGS__))(buffer, std::extent<decltype(buffer)>::value, __VA_ARGS__)";
  (* source/matcher/h2_matches_memcmp.hpp:51 *) str "H2Me_1(buffer, dimension, ...) h2::Memcmp(buffer, dimension)";
  (* source/matcher/h2_matches_memcmp.hpp:52 *) str "H2Me_0(buffer, dimension, ...) h2::Memcmp(buffer, dimension, __VA_ARGS__)";
  (* source/memory/h2_memory.hpp:25 *) str "__H2BLOCK(Attributes, Qb) for (h2::h2_memory::stack::block Qb(h2::ss(Attributes), H2_FILINE); Qb;)";
  (* source/memory/h2_memory.hpp:26 *) str "H2BLOCK(...) __H2BLOCK(H2_SPELLED(__VA_ARGS__), H2PP_UNIQUE())";
  (* source/memory/h2_memory.hpp:28 *) str "H2UNMEM(...) H2PP_CAT(H2UNMEM_, H2PP_IS_EMPTY(__VA_ARGS__))(__VA_ARGS__)";
  (* source/memory/h2_memory.hpp:29 *) str "H2UNMEM_1(...) __H2BLOCK(""unmem"", H2PP_UNIQUE())";
  (* source/memory/h2_memory.hpp:30 *) str "H2UNMEM_0(...) h2::h2_unmem(__VA_ARGS__)";
  (* source/stdio/h2_stdio.hpp:9 *) str "__H2COUT(Matcher_, expression, type, Q) for (h2::h2_cout Q(Matcher_, expression, h2::ss(type), H2_FILINE); Q;)";
  (* source/stdio/h2_stdio.hpp:10 *) str "H2COUT(Matcher_, ...) __H2COUT(Matcher_, H2_SPELLED(Matcher_), H2_SPELLED(__VA_ARGS__), H2PP_UNIQUE())";
  (* source/net/h2_socket.hpp:56 *) str "__H2SOCK(Q) for (h2::h2_sock Q; Q;)";
  (* source/net/h2_socket.hpp:57 *) str "H2SOCK(...) __H2SOCK(H2PP_UNIQUE())"].

(** all these definitions (h2_macro.hpp:3-145, h2_macro.in.hpp:2-176, h2_core.hpp:39-124, h2_misc.hpp:17-21 and those of dispatch_text, custom_text, member_text, stub_text, mock_text, catch_text and assert_text) *)
Definition defined : list (bytes * macro) := map define (header_text ++ generated_text ++ core_text ++ misc_text ++ dispatch_text ++ custom_text ++ member_text ++ stub_text ++ mock_text ++ catch_text ++ assert_text).
(** the definition of a name (not in the code; C11 6.10.3, for h2_macro.hpp:3-145) *)
Fixpoint lookup (tb : list (bytes * macro)) (n : bytes) : option macro :=
  match tb with [] => None | (k, m) :: r => if bytes_eqb n k then Some m else lookup r n end.

(** one name is among others (not in the code; for h2_macro.hpp:3-145) *)
Definition has (n : bytes) (l : list bytes) : bool := existsb (bytes_eqb n) l.
(** the macros whose replacements have not been read to the end (not in the code; C11 6.10.3.4, for h2_macro.hpp:3-145) *)
Fixpoint ends (s : list item) : list bytes :=
  match s with [] => [] | End m :: r => m :: ends r | Tok _ :: r => ends r end.
(** the macro is switched off (not in the code; C11 6.10.3.4, for h2_macro.hpp:3-145): [off] come from outside of what is read *)
Definition disabled (n : bytes) (off : list bytes) (s : list item) : bool := has n off || has n (ends s).

(** joins two tokens at ## (not in the code; C11 6.10.3.3, for h2_macro.hpp:8,10); None: not a token *)
Definition paste (a b : tok) : option tok :=
  match a, b with
  | TId x _, TId y _ => Some (TId (x ++ y) false)
  | TId x _, TNum y => if forallb (fun c => letter c || digit c) y then Some (TId (x ++ y) false) else None
  | TNum x, TId y _ | TNum x, TNum y => Some (TNum (x ++ y))
  | _, _ => None
  end.
(** joins two sequences at ##, either of which may be empty (not in the code; C11 6.10.3.3, for h2_macro.hpp:8,10) *)
Definition glue (a b : list tok) : option (list tok) :=
  match rev a, b with
  | [], _ => Some b
  | _, [] => Some a
  | x :: a', y :: b' => match paste x y with Some z => Some (rev a' ++ z :: b') | None => None end
  end.
(** the argument of a parameter, __VA_ARGS__ among them (not in the code; C11 6.10.3.1, for h2_macro.hpp:3-145) *)
Fixpoint actual (ps : list bytes) (args : list (list tok)) (t : tok) : option (list tok) :=
  match t, ps, args with
  | TId n _, p :: ps', a :: args' => if bytes_eqb n p then Some a else actual ps' args' t
  | _, _, _ => None
  end.
(** what stands at one place of a replacement (not in the code; C11 6.10.3.1, for h2_macro.hpp:3-145) *)
Definition place (ps : list bytes) (args : list (list tok)) (t : tok) : list tok :=
  match actual ps args t with Some a => a | None => [t] end.
(** the token ## (not in the code; C11 6.10.3.3, for h2_macro.hpp:8,10) *)
Definition pasting (t : tok) : bool := match t with TOther o => bytes_eqb o (str "##") | _ => false end.
(** puts arguments in a replacement (not in the code; C11 6.10.3.1 and 6.10.3.3, for h2_macro.hpp:3-145): as written next to ##, else
    replaced on their own; [left] is what stands before a ## *)
Fixpoint substitute (ps : list bytes) (raw full : list (list tok)) (left : option (list tok)) (b : list tok) : option (list tok) :=
  match b with
  | [] => Some (match left with Some l => l | None => [] end)
  | t :: r =>
    let joined := match left with Some l => glue l (place ps raw t) | None => Some (place ps raw t) end in
    match r with
    | h :: r' =>
      if pasting h then match joined with Some l => substitute ps raw full (Some l) r' | None => None end
      else match left with
           | Some _ => match joined, substitute ps raw full None r with Some l, Some o => Some (l ++ o) | _, _ => None end
           | None => option_map (app (place ps full t)) (substitute ps raw full None r)
           end
    | [] => match left with Some _ => joined | None => Some (place ps full t) end
    end
  end.
(** a parameter that stands somewhere away from ## (not in the code; C11 6.10.3.1, for h2_macro.hpp:3-145) *)
Fixpoint plain_use (p : bytes) (after : bool) (b : list tok) : bool :=
  match b with
  | [] => false
  | t :: r =>
    if pasting t then plain_use p true r
    else (match t with TId n _ => bytes_eqb n p | _ => false end && negb after && negb (match r with h :: _ => pasting h | [] => false end)) || plain_use p false r
  end.

(** the rest behind a (, if that is what follows (not in the code; C11 6.10.3, for h2_macro.hpp:3-145) *)
Fixpoint opening (s : list item) : option (list item) :=
  match s with Tok TLp :: r => Some r | End _ :: r => opening r | _ => None end.
(** reads the arguments of a call up to its ) (not in the code; C11 6.10.3, for h2_macro.hpp:3-145); [cur] is the argument being read, backwards; [named] parameters are still to be
    filled, after which, in a variadic macro, commas belong to the argument; None: there is no ) *)
Fixpoint collect (tb : list (bytes * macro)) (off : list bytes) (var : bool) (named depth : nat) (cur : list tok) (s : list item) : option (list (list tok) * list item) :=
  match s with
  | [] => None
  | End _ :: r => collect tb off var named depth cur r
  | Tok t :: r =>
    match t, depth with
    | TRp, O => Some ([rev cur], r)
    | TRp, S d => collect tb off var named d (t :: cur) r
    | TLp, _ => collect tb off var named (S depth) (t :: cur) r
    | TComma, O =>
      match named with
      | O => if var then collect tb off var O O (t :: cur) r
             else option_map (fun x => (rev cur :: fst x, snd x)) (collect tb off var O O [] r)
      | S k => option_map (fun x => (rev cur :: fst x, snd x)) (collect tb off var k O [] r)
      end
    | TId n false, _ =>
      let blue := match lookup tb n with Some _ => disabled n off r | None => false end in
      collect tb off var named depth (TId n blue :: cur) r
    | _, _ => collect tb off var named depth (t :: cur) r
    end
  end.
(** matches arguments with parameters, the ellipsis last (not in the code; C11 6.10.3, for h2_macro.hpp:3-145): the variable arguments may
    be missing; None: their number is wrong *)
Definition arrange (ps : list bytes) (var : bool) (args : list (list tok)) : option (list bytes * list (list tok)) :=
  let n := length ps in let k := length args in
  if var then if Nat.eqb k (S n) then Some (ps ++ [str "__VA_ARGS__"], args)
              else if Nat.eqb k n then Some (ps ++ [str "__VA_ARGS__"], args ++ [[]]) else None
  else if Nat.eqb k n then Some (ps, args)
  else match ps, args with [], [[]] => Some ([], []) | _, _ => None end.
(** the results of all, if all have one (not in the code; for h2_macro.hpp:3-145) *)
Fixpoint all_some {A B} (f : A -> option B) (l : list A) : option (list B) :=
  match l with
  | [] => Some []
  | a :: r => match f a, all_some f r with Some b, Some o => Some (b :: o) | _, _ => None end
  end.
(** replaces all macros in what is to be read (not in the code; C11 6.10.3, for h2_macro.hpp:3-145).  Fuel counts replacements; None: fuel
    ran out or the text is wrong *)
Fixpoint expand (tb : list (bytes * macro)) (fuel : nat) (off : list bytes) (s : list item) {struct fuel} : option (list tok) :=
  match fuel with
  | O => None
  | S f =>
    (fix scan (s : list item) : option (list tok) :=
       match s with
       | [] => Some []
       | End _ :: r => scan r
       | Tok t :: r =>
         match t with
         | TId n false =>
           match lookup tb n with
           | None => option_map (cons t) (scan r)
           | Some m =>
             if disabled n off r then option_map (cons (TId n true)) (scan r)
             else match params m with
                  | None => match substitute [] [] [] None (body m) with
                            | Some b => expand tb f off (map Tok b ++ End n :: r)
                            | None => None
                            end
                  | Some ps =>
                    match opening r with
                    | None => option_map (cons t) (scan r)
                    | Some r1 =>
                      match collect tb off (variadic m) (if variadic m then length ps else Nat.pred (length ps)) O [] r1 with
                      | None => None
                      | Some (args, r2) =>
                        match arrange ps (variadic m) args with
                        | None => None
                        | Some (qs, acts) =>
                          match all_some (fun qa => if plain_use (fst qa) false (body m) then expand tb f (off ++ ends r2) (map Tok (snd qa)) else Some []) (combine qs acts) with
                          | None => None
                          | Some full =>
                            match substitute qs acts full None (body m) with
                            | Some b => expand tb f off (map Tok b ++ End n :: r2)
                            | None => None
                            end
                          end
                        end
                      end
                    end
                  end
           end
         | _ => option_map (cons t) (scan r)
         end
       end) s
  end.
(** the text after preprocessing, with the macros of h2unit (h2_macro.hpp:3-145) *)
Definition preprocess (fuel : nat) (ts : list tok) : option (list tok) := expand defined fuel [] (map Tok ts).
