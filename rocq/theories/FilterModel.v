(** Model of test descriptions, tags and filters: source/core/h2_test.cpp:1-42, source/core/h2_filter.cpp:1-48 and
    h2_runner::filter (source/core/h2_runner.cpp:63-70).
    strcasestr, strcasecmp, strcspn, strtok, isspace are the C library's in the "C" locale; the wildcard matcher
    (h2_pattern::wildcard_match, fnmatch outside Windows) is the parameter [wild]. *)
From Coq Require Import List NArith Bool Arith.
From Verif Require Import Base.
Import ListNotations.
Local Open Scope N_scope.

(** the parts of h2_test the filter reads (h2_test.hpp:10-22) *)
Record test := mktest { t_filine : bytes; t_name : bytes; t_tags : list bytes }.

(** *** descriptions (h2_test.cpp:1-33) *)

(** the scan for an unquoted character (h2_test.cpp:7-10 for a left bracket, 13-16 for a right bracket): the part
    before it and the part after it *)
Fixpoint scan (want : byte) (quote : bool) (s : bytes) : option (bytes * bytes) :=
  match s with
  | [] => None
  | c :: s' =>
      let quote' := if c =? 34 then negb quote else quote in
      if negb quote' && (c =? want) then Some ([], s')
      else match scan want quote' s' with Some (a, b) => Some (c :: a, b) | None => None end
  end.
(** __split_describe (h2_test.cpp:1-23): (name_buf, tags_buf); None when the 512 byte buffers overflow (strcpy, line 3) *)
Definition split_describe (describe : bytes) : option (bytes * bytes) :=
  if Nat.ltb (length describe) 512 then
    match scan 91 false describe with
    | None => Some (describe, [])
    | Some (pre, after) =>
        match scan 93 false after with
        | None => Some (describe, [])
        | Some (mid, post) => Some (pre ++ post, mid)
        end
    end
  else None.
(** isspace in the "C" locale (used by strip_left, h2_misc.cpp:41) *)
Definition isspace (c : byte) : bool := (c =? 32) || ((9 <=? c) && (c <=? 13)).
(** strip_left (h2_misc.cpp:39-43) *)
Fixpoint strip_left (s : bytes) : bytes := match s with c :: s' => if isspace c then strip_left s' else s | [] => [] end.
(** the delimiters given to strtok (h2_test.cpp:30-31) *)
Definition is_delim (c : byte) : bool := (c =? 32) || (c =? 44).
(** strtok loop (h2_test.cpp:30-31): cur is the token being read, reversed *)
Fixpoint strtok (s cur : bytes) : list bytes :=
  match s with
  | [] => match cur with [] => [] | _ => [rev cur] end
  | c :: s' => if is_delim c then match cur with [] => strtok s' [] | _ => rev cur :: strtok s' [] end
               else strtok s' (c :: cur)
  end.
(** the constructor's name and tags (h2_test.cpp:25-33); h2_array_append (h2_misc.hpp:25) keeps at most 63 tags *)
Definition describe_test (filine describe : bytes) : option test :=
  match split_describe describe with
  | None => None
  | Some (nm, tg) => Some (mktest filine (strip_left nm) (firstn 63 (strtok tg [])))
  end.

(** *** matching *)
(** strcspn(p, "?*[]") < strlen(p) (h2_filter.cpp:5, h2_test.cpp:39) *)
Definition has_meta (p : bytes) : bool := existsb (fun c => (c =? 63) || (c =? 42) || (c =? 91) || (c =? 93)) p.
(** is a prefix, ignoring case (inside strcasestr, h2_filter.cpp:4) *)
Fixpoint case_prefix (p s : bytes) : bool :=
  match p, s with
  | [], _ => true
  | a :: p', b :: s' => (tolower a =? tolower b) && case_prefix p' s'
  | _ :: _, [] => false
  end.
(** strcasestr(s, p) != NULL (h2_filter.cpp:4) *)
Fixpoint strcasestr (s p : bytes) : bool :=
  case_prefix p s || match s with [] => false | _ :: s' => strcasestr s' p end.

Section Filter.
(** the wildcard matcher (h2_pattern::wildcard_match, called at h2_filter.cpp:5 and h2_test.cpp:39) *)
Variable wild : bytes -> bytes -> bool.

(** match_names (h2_filter.cpp:1-8) *)
Fixpoint match_names (patterns : list bytes) (subject : bytes) : bool :=
  match patterns with
  | [] => false
  | p :: ps => if strcasestr subject p then true else if has_meta p && wild p subject then true else match_names ps subject
  end.
(** h2_test::tagged (h2_test.cpp:35-42) *)
Fixpoint tagged (tags : list bytes) (p : bytes) : bool :=
  match tags with
  | [] => false
  | t :: ts => if str_equals true t p then true else if has_meta p && wild p t then true else tagged ts p
  end.
(** match_tags (h2_filter.cpp:10-15) *)
Fixpoint match_tags (patterns : list bytes) (t : test) : bool :=
  match patterns with
  | [] => false
  | p :: ps => if tagged (t_tags t) p then true else match_tags ps t
  end.

(** the pattern lists of the options (h2_option.hpp: includes ... tags_excludes) *)
Record filters := mkfilters {
  includes : list bytes; excludes : list bytes; file_includes : list bytes; file_excludes : list bytes;
  suite_includes : list bytes; suite_excludes : list bytes; case_includes : list bytes; case_excludes : list bytes;
  tags_includes : list bytes; tags_excludes : list bytes }.

(** [x[0]] (h2_filter.cpp:19-36) *)
Definition given (l : list bytes) : bool := match l with [] => false | _ => true end.
(** [c && f c] for the possibly null case (h2_filter.cpp:19-36) *)
Definition on_case (c : option test) (f : test -> bool) : bool := match c with Some t => f t | None => false end.

(** __filter (h2_filter.cpp:17-37) *)
Definition filter_test (F : filters) (s : test) (c : option test) : bool :=
  let names ps t := match_names ps t in
  if (given (includes F) || given (file_includes F) || given (suite_includes F) || given (case_includes F) || given (tags_includes F)) &&
     (let m := false in
      let m := if given (includes F) then m || (names (includes F) (t_filine s) || on_case c (fun t => names (includes F) (t_filine t)) ||
                 names (includes F) (t_name s) || on_case c (fun t => names (includes F) (t_name t)) ||
                 match_tags (includes F) s || on_case c (match_tags (includes F))) else m in
      let m := if given (file_includes F) then m || (names (file_includes F) (t_filine s) || on_case c (fun t => names (file_includes F) (t_filine t))) else m in
      let m := if given (suite_includes F) then m || names (suite_includes F) (t_name s) else m in
      let m := if given (case_includes F) then m || on_case c (fun t => names (case_includes F) (t_name t)) else m in
      let m := if given (tags_includes F) then m || (match_tags (tags_includes F) s || on_case c (match_tags (tags_includes F))) else m in
      negb m) then true
  else if given (excludes F) && ((names (excludes F) (t_filine s) || on_case c (fun t => names (excludes F) (t_filine t))) ||
            (names (excludes F) (t_name s) || on_case c (fun t => names (excludes F) (t_name t))) ||
            (match_tags (excludes F) s || on_case c (match_tags (excludes F)))) then true
  else if given (file_excludes F) && (names (file_excludes F) (t_filine s) || on_case c (fun t => names (file_excludes F) (t_filine t))) then true
  else if given (suite_excludes F) && names (suite_excludes F) (t_name s) then true
  else if given (case_excludes F) && on_case c (fun t => names (case_excludes F) (t_name t)) then true
  else if given (tags_excludes F) && (match_tags (tags_excludes F) s || on_case c (match_tags (tags_excludes F))) then true
  else false.

(** h2_runner::filter for one suite (h2_runner.cpp:63-70, h2_filter.cpp:39-48): the suite's flag and the flags of its cases *)
Definition filter_suite (F : filters) (s : test) (cases : list test) : bool * list bool :=
  fold_left (fun acc c => let f := filter_test F s (Some c) in (if negb f then false else fst acc, snd acc ++ [f]))
    cases (filter_test F s None, []).
End Filter.
