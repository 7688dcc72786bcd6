(** * The regular expressions of the code

    Each definition is the syntax tree of one pattern; the pattern itself is
    quoted above it.  Groups that are never read are not recorded. *)

From Verif Require Import PyStr Regex UniTable.
Set Warnings "-comment-terminator-in-string".

(** Building blocks of the patterns below: a character out of a set; a greedy
    or lazy run of a class; the blank alternatives of parser.py:32-63. *)
Definition RC (cs : str) : re := RChr (oneof cs).
(** Alternatives in parentheses (parser.py:32). *)
Definition alts (l : list re) : re :=
  match l with
  | [] => REps
  | r :: t => fold_left RAlt t r
  end.
(** [\s*], [\s+], [\t*], [\t+] (parser.py:36). *)
Definition sp_star : re := RStar true RSp.
(** parser.py:36. *)
Definition sp_plus : re := RPlus true RSp.
(** parser.py:36. *)
Definition tab : re := RChr (ch cTAB).
(** parser.py:36. *)
Definition tab_star : re := RStar true tab.
(** parser.py:36. *)
Definition tab_plus : re := RPlus true tab.
(** "(\s|\t)*" (parser.py:32, 36, 38, 42, 53) *)
Definition sp_tab_star : re := RStar true (RAlt RSp tab).
(** "(\s+|\t+)" (parser.py:36, 40, 41, 45, 47, 56, 58) *)
Definition blanks1 : re := RAlt sp_plus tab_plus.
(** "(\s*|\t*)" (parser.py:45, 47, 49, 51, 53) *)
Definition blanks0 : re := RAlt sp_star tab_star.
(** ".*", ".*?", ".+", ".+?" (inlinerep.py:6, parser.py:36) *)
Definition dot_star : re := RStar true RDot.
(** inlinerep.py:6. *)
Definition dot_star_lazy : re := RStar false RDot.
(** parser.py:36. *)
Definition dot_plus : re := RPlus true RDot.
(** inlinerep.py:6, cls_stash.py:20. *)
Definition dot_plus_lazy : re := RPlus false RDot.

(** ** parser.py *)

(** "([A-Z0-9a-z_.-]|\$|\{|\}|:)" (parser.py:32, 53) *)
Definition up_c : N -> bool := range 65 90.
(** parser.py:32. *)
Definition low_c : N -> bool := range 97 122.
(** parser.py:32. *)
Definition dig_c : N -> bool := range 48 57.
(** parser.py:32, 53. *)
Definition name_cls : N -> bool := por up_c (por dig_c (por low_c (oneof "_.-"))).
(** parser.py:32, 53. *)
Definition name_alt : re :=
  alts [RChr name_cls; RC "$"; RC "{"; RC "}"; RC ":"].

(** "(?P<varop>(\s|\t)*(\+|\?|\:|\.)*=(\+|\.)*(\s|\t)*)" (parser.py:32, 38, 53) *)
Definition varop_re : re :=
  RGrp "varop" (RCat [ sp_tab_star;
                       RStar true (alts [RC "+"; RC "?"; RC ":"; RC "."]);
                       RC "=";
                       RStar true (alts [RC "+"; RC "."]);
                       sp_tab_star ]).

(** parser.py:31-32
    "^(?P<varname>([A-Z0-9a-z_.-]|\$|\{|\}|:)+?)(?P<varop>...)(?P<varval>.*)" *)
Definition re_var : re :=
  RCat [ RBol; RGrp "varname" (RPlus false name_alt); varop_re; RGrp "varval" dot_star ].

(** parser.py:33-34
    "^((?P<py>python)\s*|(?P<fr>fakeroot\s*))*(?P<func>[\w\.\-\+\{\}:\$]+)?\s*\(\s*\)\s*\{(?P<funcbody>.*)\s*\}" *)
Definition re_func : re :=
  RCat [ RBol;
         RStar true (RAlt (RSeq (RGrp "py" (RLit "python")) sp_star)
                          (RGrp "fr" (RSeq (RLit "fakeroot") sp_star)));
         ROpt true (RGrp "func" (RPlus true (RChr (por re_word (oneof ".-+{}:$")))));
         sp_star; RC "("; sp_star; RC ")"; sp_star; RC "{";
         RGrp "funcbody" dot_star; sp_star; RC "}" ].

(** parser.py:35-36
    "^(\s|\t)*(?P<statement>inherit(_defer)*)(\s+|\t+)(?P<inhname>.+)" *)
Definition re_inherit : re :=
  RCat [ RBol; sp_tab_star;
         RGrp "statement" (RSeq (RLit "inherit") (RStar true (RLit "_defer")));
         blanks1; RGrp "inhname" dot_plus ].

(** parser.py:37-38; the two quote characters are 39 and 34
    "^INHERIT(?P<varop>...)('|\"")(?P<inhname>.*)('|\"")" *)
Definition quote_alt : re := RAlt (RChr (ch cSQ)) (RChr (ch cDQ)).
(** parser.py:37-38. *)
Definition re_inherit_glob : re :=
  RCat [ RBol; RLit "INHERIT"; varop_re; quote_alt; RGrp "inhname" dot_star; quote_alt ].

(** parser.py:39-40
    "^\s*?export(\s+|\t+)(?P<name>.+)\s*=\s*\""(?P<value>.*)\""" *)
Definition re_export_wval : re :=
  RCat [ RBol; RStar false RSp; RLit "export"; blanks1; RGrp "name" dot_plus;
         sp_star; RC "="; sp_star; RChr (ch cDQ); RGrp "value" dot_star; RChr (ch cDQ) ].

(** parser.py:41 "^\s*?export(\s+|\t+)(?P<name>.+)\s*$" *)
Definition re_export_woval : re :=
  RCat [ RBol; RStar false RSp; RLit "export"; blanks1; RGrp "name" dot_plus;
         sp_star; REol ].

(** parser.py:42 "^(\s|\t)*#+\s*(?P<body>.*)" *)
Definition re_comments : re :=
  RCat [ RBol; sp_tab_star; RPlus true (RC "#"); sp_star; RGrp "body" dot_star ].

(** parser.py:43 "^#+\s*(?P<body>.*)" *)
Definition re_comments_pure : re :=
  RCat [ RBol; RPlus true (RC "#"); sp_star; RGrp "body" dot_star ].

(** parser.py:44-45
    "^(\s*|\t*)def(\s+|\t+)(?P<funcname>[a-z0-9_\-]+)(\s*|\t*)\(.*\)\:" *)
Definition re_python : re :=
  RCat [ RBol; blanks0; RLit "def"; blanks1;
         RGrp "funcname" (RPlus true (RChr (por low_c (por dig_c (oneof "_-")))));
         blanks0; RC "("; dot_star; RC ")"; RC ":" ].

(** parser.py:46-47
    "^(\s*|\t*)(?P<statement>include|require)(\s+|\t+)(?P<incname>[A-za-z0-9\-\./\$\{\}]+)"
    (the range A-z is the one of the code) *)
Definition re_include : re :=
  RCat [ RBol; blanks0;
         RGrp "statement" (RAlt (RLit "include") (RLit "require")); blanks1;
         RGrp "incname" (RPlus true (RChr (por (range 65 122) (por dig_c (oneof "-./${}"))))) ].

(** parser.py:48-49
    "^(\s*|\t*)addtask\s+(?P<func>[\w\-]+)\s*((before\s*(?P<before>(([^#\n]*(?=after))|([^#\n]*))))|(after\s*(?P<after>(([^#\n]*(?=before))|([^#\n]*)))))*(?P<comment>#.*|.*?)" *)
Definition no_hash_nl : re := RStar true (RChr (fun c => negb (N.eqb c 35) && negb (N.eqb c cNL))).
(** parser.py:48-49. *)
Definition re_addtask : re :=
  RCat [ RBol; blanks0; RLit "addtask"; sp_plus;
         RGrp "func" (RPlus true (RChr (por re_word (oneof "-")))); sp_star;
         RStar true
           (RAlt (RCat [RLit "before"; sp_star;
                        RGrp "before" (RAlt (RSeq no_hash_nl (RLook true (RLit "after"))) no_hash_nl)])
                 (RCat [RLit "after"; sp_star;
                        RGrp "after" (RAlt (RSeq no_hash_nl (RLook true (RLit "before"))) no_hash_nl)]));
         RGrp "comment" (RAlt (RSeq (RC "#") dot_star) dot_star_lazy) ].

(** parser.py:50-51 "^(\s*|\t*)deltask\s+(?P<func>[\w\-]+)\s*(?P<comment>#.*)*" *)
Definition re_deltask : re :=
  RCat [ RBol; blanks0; RLit "deltask"; sp_plus;
         RGrp "func" (RPlus true (RChr (por re_word (oneof "-")))); sp_star;
         RStar true (RGrp "comment" (RSeq (RC "#") dot_star)) ].

(** parser.py:52-53
    "^(\s*|\t*)(?P<name>([A-Z0-9a-z_.-]|\$|\{|\}|:)+?)\[(?P<ident>(\w|-|\.|/|@|_)+)\](?P<varop>...)(?P<varval>.*)" *)
Definition re_flagass : re :=
  RCat [ RBol; blanks0; RGrp "name" (RPlus false name_alt); RC "[";
         RGrp "ident" (RPlus true (alts [RChr re_word; RC "-"; RC "."; RC "/"; RC "@"; RC "_"]));
         RC "]"; varop_re; RGrp "varval" dot_star ].

(** parser.py:54 "^EXPORT_FUNCTIONS\s+(?P<func>.*)" *)
Definition re_export_func : re :=
  RCat [ RBol; RLit "EXPORT_FUNCTIONS"; sp_plus; RGrp "func" dot_star ].

(** parser.py:55-56
    "^(\s+|\t*)addpylib(\s+|\t+)(?P<path>\$\{LAYERDIR\}/.+)(\s+|\t+)(?P<namespace>.*)" *)
Definition re_addpylib : re :=
  RCat [ RBol; RAlt sp_plus tab_star; RLit "addpylib"; blanks1;
         RGrp "path" (RSeq (RLit "${LAYERDIR}/") dot_plus); blanks1;
         RGrp "namespace" dot_star ].

(** parser.py:57-58
    "^(\s+|\t+)*unset(\s+|\t+)+(?P<varname>.+?)(\[*(?P<flag>.+)\])*" *)
Definition re_unset : re :=
  RCat [ RBol; RStar true blanks1; RLit "unset"; RPlus true blanks1;
         RGrp "varname" dot_plus_lazy;
         RStar true (RCat [RStar true (RC "["); RGrp "flag" dot_plus; RC "]"]) ].

(** parser.py:59-60
    "addfragments\s+(?P<path>.+)\s+(?P<variable>.+)\s+(?P<flagged>.+)" *)
Definition re_addfragments : re :=
  RCat [ RLit "addfragments"; sp_plus; RGrp "path" dot_plus; sp_plus;
         RGrp "variable" dot_plus; sp_plus; RGrp "flagged" dot_plus ].

(** parser.py:61 "include_all\s+(?P<file>.+)" *)
Definition re_includeall : re :=
  RCat [ RLit "include_all"; sp_plus; RGrp "file" dot_plus ].

(** parser.py:62-63
    ".*(((?P<py>python)|(?P<fr>fakeroot))\s*)*(?P<func>[\w\.\-\+\{\}\$]+)?\s*\(\s*\)\s*\{"
    (only used for its truth value) *)
Definition re_func_start : re :=
  RCat [ dot_star;
         RStar true (RSeq (RAlt (RGrp "py" (RLit "python")) (RGrp "fr" (RLit "fakeroot"))) sp_star);
         ROpt true (RGrp "func" (RPlus true (RChr (por re_word (oneof ".-+{}$")))));
         sp_star; RC "("; sp_star; RC ")"; sp_star; RC "{" ].

(** parser.py:64 "\\\s*\n" *)
Definition re_next_line : re := RCat [ RChr (ch cBSL); sp_star; RChr (ch cNL) ].

(** parser.py:65 "^[A-Za-z0-9#]+" *)
Definition re_valid_func_name : re :=
  RSeq RBol (RPlus true (RChr (por up_c (por low_c (por dig_c (oneof "#")))))).

(** ** inlinerep.py *)

(** Shared pieces of inlinerep.py:5-27: [,\s*] and a lazily matched argument. *)
Definition comma_sp : re := RSeq (RC ",") sp_star.
(** A lazily matched argument (inlinerep.py:5-27). *)
Definition arg_grp (n : str) : re := RGrp n dot_star_lazy.

(** inlinerep.py:5-6 "(.*)bb\.utils\.filter\(\s*(?P<trueval>.*?),.*?,.*?\)" *)
Definition re_filter : re :=
  RCat [ dot_star; RLit "bb.utils.filter("; sp_star; arg_grp "trueval"; RC ",";
         dot_star_lazy; RC ","; dot_star_lazy; RC ")" ].

(** inlinerep.py:7-8
    "(.*)bb\.utils\.contains\(.*?,\s*.*?,\s*(?P<trueval>.*?),\s*(?P<falseval>.*?),\s*.\)" *)
Definition re_contains : re :=
  RCat [ dot_star; RLit "bb.utils.contains("; dot_star_lazy; comma_sp; dot_star_lazy; comma_sp;
         arg_grp "trueval"; comma_sp; arg_grp "falseval"; comma_sp; RDot; RC ")" ].

(** inlinerep.py:9-10 (same with contains_any) *)
Definition re_contains_any : re :=
  RCat [ dot_star; RLit "bb.utils.contains_any("; dot_star_lazy; comma_sp; dot_star_lazy; comma_sp;
         arg_grp "trueval"; comma_sp; arg_grp "falseval"; comma_sp; RDot; RC ")" ].

(** inlinerep.py:11-12
    "(.*)oe\.utils\.conditional\(.*?,\s*.*?,\s*(?P<trueval>.*?),\s*(?P<falseval>.*?),\s*.*?\)" *)
Definition re_conditional : re :=
  RCat [ dot_star; RLit "oe.utils.conditional("; dot_star_lazy; comma_sp; dot_star_lazy; comma_sp;
         arg_grp "trueval"; comma_sp; arg_grp "falseval"; comma_sp; dot_star_lazy; RC ")" ].

(** inlinerep.py:13-14
    "(.*)oe\.utils\.ifelse\(.*?,\s*(?P<trueval>.*?),\s*(?P<falseval>.*?)\)" *)
Definition re_ifelse : re :=
  RCat [ dot_star; RLit "oe.utils.ifelse("; dot_star_lazy; comma_sp;
         arg_grp "trueval"; comma_sp; arg_grp "falseval"; RC ")" ].

(** inlinerep.py:15-18
    "(.*)oe\.utils\.any_distro_features\(.*?,\s*(?P<feature>.*?)(,\s*(?P<trueval>.*?)(,\s*(?P<falseval>.*?))*)*\)"
    and the same with all_distro_features *)
Definition re_distro_features (fn : str) : re :=
  RCat [ dot_star; RLit fn; dot_star_lazy; comma_sp; arg_grp "feature";
         RStar true (RCat [comma_sp; arg_grp "trueval";
                           RStar true (RSeq comma_sp (arg_grp "falseval"))]);
         RC ")" ].
(** inlinerep.py:15-16. *)
Definition re_any_distro : re := re_distro_features "oe.utils.any_distro_features(".
(** inlinerep.py:17-18. *)
Definition re_all_distro : re := re_distro_features "oe.utils.all_distro_features(".

(** inlinerep.py:19-20
    "(.*)oe\.utils\.vartrue\(.*?,\s*(?P<trueval>.*?),\s*(?P<falseval>.*?),.*?\)" *)
Definition re_vartrue : re :=
  RCat [ dot_star; RLit "oe.utils.vartrue("; dot_star_lazy; comma_sp;
         arg_grp "trueval"; comma_sp; arg_grp "falseval"; RC ","; dot_star_lazy; RC ")" ].

(** inlinerep.py:21-24
    "(.*)oe\.utils\.less_or_equal\(.*?,\s*.*?,\s*(?P<trueval>.*?),\s*(?P<falseval>.*?),.*?\)"
    and the same with version_less_or_equal *)
Definition re_loe (fn : str) : re :=
  RCat [ dot_star; RLit fn; dot_star_lazy; comma_sp; dot_star_lazy; comma_sp;
         arg_grp "trueval"; comma_sp; arg_grp "falseval"; RC ","; dot_star_lazy; RC ")" ].
(** inlinerep.py:21-22. *)
Definition re_less_or_equal : re := re_loe "oe.utils.less_or_equal(".
(** inlinerep.py:23-24. *)
Definition re_version_less_or_equal : re := re_loe "oe.utils.version_less_or_equal(".

(** inlinerep.py:25-26
    "(.*)oe\.utils\.both_contain\(.*?,\s*.*?,\s*(?P<trueval>.*?),.*?\)" *)
Definition re_both_contain : re :=
  RCat [ dot_star; RLit "oe.utils.both_contain("; dot_star_lazy; comma_sp; dot_star_lazy; comma_sp;
         arg_grp "trueval"; RC ","; dot_star_lazy; RC ")" ].

(** inlinerep.py:27 "\s*d\.getVar\(\s*(?P<val>.*?)\s*\)" *)
Definition re_d_getvar : re :=
  RCat [ sp_star; RLit "d.getVar("; sp_star; arg_grp "val"; sp_star; RC ")" ].

(** ** cls_item.py *)

(** cls_item.py:10 "\s|\t|\x1b(?!x)" *)
Definition re_safesplit : re :=
  RAlt (RAlt RSp tab) (RSeq (RChr (ch cESC)) (RLook false (RC "x"))).
(** cls_item.py:11 "[a-z0-9{}$]+" *)
Definition re_id : re := RPlus true (RChr (por low_c (por dig_c (oneof "{}$")))).
(** cls_item.py:12 "\s*\(.*?\)" *)
Definition re_versioned : re := RCat [ sp_star; RC "("; dot_star_lazy; RC ")" ].

(** ** cls_stash.py *)

(** cls_stash.py:16 "\s|\t|\x1b" *)
Definition re_stash_split : re := RAlt (RAlt RSp tab) (RChr (ch cESC)).
(** cls_stash.py:17 "^(nativesdk-)*(.+)(-native)*(-cross)*" *)
Definition re_class_id : re :=
  RCat [ RBol; RStar true (RLit "nativesdk-"); RGrp "2" dot_plus;
         RStar true (RLit "-native"); RStar true (RLit "-cross") ].
(** cls_stash.py:18 "^(.+)(-native)$" *)
Definition re_class_id_native : re :=
  RCat [ RBol; RGrp "1" dot_plus; RLit "-native"; REol ].
(** cls_stash.py:19 "^(.+)(-cross)$" *)
Definition re_class_id_cross : re :=
  RCat [ RBol; RGrp "1" dot_plus; RLit "-cross"; REol ].
(** cls_stash.py:20 "\$\{(.+?)\}" *)
Definition re_var_ref : re := RCat [ RLit "${"; RGrp "1" dot_plus_lazy; RC "}" ].
(** cls_stash.py:21-22 "d.getVar\(.(.+?).(True|False|,|\s+)*\)" *)
Definition re_var_ref2 : re :=
  RCat [ RC "d"; RDot; RLit "getVar("; RDot; RGrp "1" dot_plus_lazy; RDot;
         RStar true (alts [RLit "True"; RLit "False"; RC ","; sp_plus]); RC ")" ].
(** cls_stash.py:23-24 "\{@\s*(.*)oe\.utils\.read_file\((?P<file>.*)\)\}" *)
Definition re_read_file : re :=
  RCat [ RLit "{@"; sp_star; dot_star; RLit "oe.utils.read_file("; RGrp "file" dot_star; RLit ")}" ].

(** ** Patterns made from names

    cls_stash.py:199 and 214 match with patterns made from file names,
    cls_stash.py:932 with patterns from PACKAGES_DYNAMIC.  Supported are
    literal characters, ['.'], ['^'], ['$'], escaped punctuation and the
    quantifiers ['*' '+' '?'] with their lazy and possessive forms; any other
    special character makes the pattern unsupported ([None]). *)
Inductive quant := QNone | QStar (g : bool) (p : bool) | QPlus (g : bool) (p : bool) | QOpt (g : bool) (p : bool).

(** Quantifier at the head of the pattern text (cls_stash.py:199, 214, 932). *)
Definition take_quant (s : str) : quant * str :=
  let mode (t : str) : bool * bool * str :=
    match t with
    | c :: t' => if N.eqb c 63 then (false, false, t')
                 else if N.eqb c 43 then (true, true, t')
                 else (true, false, t)
    | [] => (true, false, [])
    end in
  match s with
  | c :: t =>
      let '(g, p, t') := mode t in
      if N.eqb c 42 then (QStar g p, t')
      else if N.eqb c 43 then (QPlus g p, t')
      else if N.eqb c 63 then (QOpt g p, t')
      else (QNone, s)
  | [] => (QNone, [])
  end.

(** Apply a quantifier to one character pattern (cls_stash.py:199, 214, 932). *)
Definition quantify (q : quant) (r : re) : re :=
  match q with
  | QNone => r
  | QStar g p => let x := RStar g r in if p then RAtom x else x
  | QPlus g p => let x := RPlus g r in if p then RAtom x else x
  | QOpt g p => let x := ROpt g r in if p then RAtom x else x
  end.

(** Characters with a meaning that is not supported: parentheses, brackets,
    braces, bar; and quantifiers in a place where nothing can be repeated. (cls_stash.py:199, 214, 932.) *)
Definition unsupported_chars : str := "()[]{}|*+?".
(** Characters behind a backslash that may have a meaning (cls_stash.py:199, 214, 932). *)
Definition is_alnum_ascii : N -> bool := por up_c (por low_c dig_c).

(** Compile a pattern text (cls_stash.py:199, 214, 932). *)
Fixpoint compile_pat (fuel : nat) (s : str) : option re :=
  match fuel with
  | O => None
  | S f =>
      match s with
      | [] => Some REps
      | c :: t =>
          let atom (r : re) (t : str) :=
            let '(q, t') := take_quant t in
            match compile_pat f t' with
            | Some r' => Some (RSeq (quantify q r) r')
            | None => None
            end in
          let anchor (r : re) (t : str) :=
            match take_quant t with
            | (QNone, t') => match compile_pat f t' with Some r' => Some (RSeq r r') | None => None end
            | _ => None
            end in
          if N.eqb c 94 then anchor RBol t
          else if N.eqb c 36 then anchor REol t
          else if N.eqb c 46 then atom RDot t
          else if N.eqb c cBSL then
                 match t with
                 | d :: t' => if is_alnum_ascii d then None else atom (RChr (ch d)) t'
                 | [] => None
                 end
          else if in_chars unsupported_chars c then None
          else atom (RChr (ch c)) t
      end
  end.
(** A pattern text as a regular expression (cls_stash.py:199, 214, 932). *)
Definition dyn_pattern (s : str) : option re := compile_pat (S (length s)) s.
