(** Model of what -h prints: usage (source/option/h2_option.cpp:1-42) and the place where it is called (185-186).

    In the texts below ~ stands for \033 and ^ for \n.  The three values of the line with the version are parameters.  A printf of a text
    with a conversion in it and no argument is undefined. *)
From Coq Require Import String List NArith Bool Arith.
From Verif Require Import Base OptionModel.
Import ListNotations.
Local Open Scope N_scope.
Local Open Scope list_scope.

(** string literals with \033 and \n (h2_option.cpp:4-40) *)
Definition text (s : string) : bytes := map (fun c => if c =? 126 then 27 else if c =? 94 then 10 else c) (str s).
(** H2_USAGE_BR (h2_option.cpp:20) *)
Definition usage_br : bytes := text "~[90m├─────┼───────────┼────────────────────────────────────────────────────────────┤~[0m^".
(** the lines about -i and -e (h2_option.cpp:4-8) *)
Definition patterns_rows : list bytes := [
  text "~[36m-i/e pattern~[0m: include in file:line, suite name, case name, suite tags, case tags^";
  text "~[36m-i/e file=pattern~[0m: include in file:line^";
  text "~[36m-i/e suite=pattern~[0m: include in suite name^";
  text "~[36m-i/e case=pattern~[0m: include in case name^";
  text "~[36m-i/e tags=pattern~[0m: include in suite tags or case tags^"].
(** the lines about -W (h2_option.cpp:11-16) *)
Definition warnings_rows : list bytes := [
  text "~[36mexception~[0m: consider thrown exception as warning^";
  text "~[36muncaught~[0m: consider uncaught exception as warning^";
  text "~[36mleak~[0m: consider memory leak as warning^";
  text "~[36mviolate~[0m: consider memory violate access as warning^";
  text "~[36mdouble_free~[0m: consider memory double free as warning^";
  text "~[36masymmetric_free~[0m: consider memory asymmetric free as warning^"].
(** the lines of the table, with H2_USAGE_BR where it is written (h2_option.cpp:21-40) *)
Definition table_rows : list bytes := [
  text "~[90m┌─────┬───────────┬────────────────────────────────────────────────────────────┐~[0m^";
  text "~[90m│~[0m -~[36mb~[0m  ~[90m│~[0m   ~[90m[~[0mn=1~[90m]~[0m   ~[90m│~[0m ~[36mb~[0mreak test once n (default 1) cases failed                 ~[90m│~[0m^";
  usage_br;
  text "~[90m│~[0m -~[36mc~[0m  ~[90m│~[0m           ~[90m│~[0m ~[36mc~[0montinue asserts even if failure occurred                  ~[90m│~[0m^";
  usage_br;
  text "~[90m│~[0m -~[36mC~[0m  ~[90m│~[0m           ~[90m│~[0m Console output in black-white ~[36mC~[0molor style                  ~[90m│~[0m^";
  usage_br;
  text "~[90m│~[0m -~[36md~[0m  ~[90m│~[0m           ~[90m│~[0m ~[36md~[0mebug with gdb/lldb once failure occurred                  ~[90m│~[0m^";
  usage_br;
  text "~[90m│~[0m -~[36mf~[0m  ~[90m│~[0m           ~[90m│~[0m Only test last ~[36mf~[0mailed cases                                ~[90m│~[0m^";
  usage_br;
  text "~[90m│~[0m -~[36mF~[0m  ~[90m│~[0m  ~[90m[~[0mn=max~[90m]~[0m  ~[90m│~[0m ~[36mF~[0mold json print, 0:unfold 1:short 2:same 3:single          ~[90m│~[0m^";
  usage_br;
  text "~[90m│~[0m -~[36mi~[0m~[90m/~[0m~[36me~[0m~[90m│~[0m~[90m[~[0mpattern .~[90m]~[0m~[90m│~[0m ~[36mi~[0mnclude~[90m/~[0m~[36me~[0mxclude by case suite file or tags, -h i...        ~[90m│~[0m^";
  usage_br;
  text "~[90m│~[0m -~[36ml~[0m  ~[90m│~[0m  ~[90m[~[0mtype .~[90m]~[0m ~[90m│~[0m ~[36ml~[0mist suites cases and tags, type [suite case todo tags]    ~[90m│~[0m^";
  usage_br;
  text "~[90m│~[0m -~[36mm~[0m  ~[90m│~[0m           ~[90m│~[0m Test cases without ~[36mm~[0memory check                            ~[90m│~[0m^";
  usage_br;
  text "~[90m│~[0m -~[36mo~[0m  ~[90m│~[0m  ~[90m[~[0mpath~[90m]~[0m   ~[90m│~[0m ~[36mo~[0mutput junit report, default is <executable>.junit.xml     ~[90m│~[0m^";
  usage_br;
  text "~[90m│~[0m -~[36mp~[0m  ~[90m│~[0m           ~[90m│~[0m Disable test percentage ~[36mp~[0mrogressing bar                    ~[90m│~[0m^";
  usage_br;
  text "~[90m│~[0m -~[36mr~[0m  ~[90m│~[0m   ~[90m[~[0mn=2~[90m]~[0m   ~[90m│~[0m Repeat test n (default 2) ~[36mr~[0mounds                           ~[90m│~[0m^";
  usage_br;
  text "~[90m│~[0m -~[36ms~[0m  ~[90m│~[0m~[90m[~[0mtype=rand~[90m]~[0m~[90m│~[0m ~[36ms~[0mhuffle cases random/alphabet/reverse if no last failed    ~[90m│~[0m^";
  usage_br;
  text "~[90m│~[0m -~[36mS~[0m  ~[90m│~[0m ~[90m[~[0mtype=\""~[90m]~[0m ~[90m│~[0m JSON C/C++ ~[36mS~[0mource code, type [\'/single \""/double \\\""]    ~[90m│~[0m^";
  usage_br;
  text "~[90m│~[0m -~[36mv~[0m  ~[90m│~[0m  ~[90m[~[0mn=max~[90m]~[0m  ~[90m│~[0m ~[36mv~[0merbose, 0:quiet 1/2/3:compact 4:normal 5:details          ~[90m│~[0m^";
  usage_br;
  text "~[90m│~[0m -~[36mx~[0m  ~[90m│~[0m           ~[90m│~[0m e~[36mx~[0mit code as failed cases count                            ~[90m│~[0m^";
  usage_br;
  text "~[90m│~[0m -~[36mW~[0m  ~[90m│~[0m  ~[90m[~[0mtype .~[90m]~[0m ~[90m│~[0m Configure failure as ~[36mW~[0marning, exception, leak, -h W...     ~[90m│~[0m^";
  usage_br;
  text "~[90m│~[0m -~[36mh~[0m~[90m/~[0m~[36m?~[0m~[90m│~[0m  ~[90m[~[0moption~[90m]~[0m ~[90m│~[0m https://github.com/lingjf/h2unit/.../document/option.md    ~[90m│~[0m^";
  text "~[90m└─────┴───────────┴────────────────────────────────────────────────────────────┘~[0m^"].
(** printf without arguments: the text, or undefined (h2_option.cpp:4, 11, 21) *)
Definition printf0 (format : bytes) : option bytes := if existsb (N.eqb 37) format then None else Some format.
(** the line with the version (h2_option.cpp:18) *)
Definition headline (version date revision : bytes) : bytes :=
  text " ~[32mh₂unit~[0m ~[90mv~[0m" ++ version ++ text "  ~[90m" ++ date ++ text "~[0m  ~[90m" ++ revision ++ text "~[0m^".
(** usage (h2_option.cpp:1-42) *)
Definition usage (version date revision : bytes) (topic : option bytes) : option bytes :=
  let is := fun w : string => match topic with Some o => bytes_eqb (str w) o | None => false end in
  if is "i"%string || is "e"%string then printf0 (concat patterns_rows)
  else if is "W"%string then printf0 (concat warnings_rows)
  else match printf0 (concat table_rows) with Some t => Some (headline version date revision ++ t) | None => None end.
(** -h and -? with what follows them (h2_option.cpp:185-186) *)
Definition help (version date revision : bytes) (rest : list bytes) : option bytes :=
  usage version date revision (match extract_string rest with Some (t, _) => Some t | None => None end).
