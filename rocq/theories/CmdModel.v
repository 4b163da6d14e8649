(** * Model of cxx/CmdLineArgParser.h and cxx/CmdLineArgParser.cpp

    A std::string is a Coq [string] (sequence of 8-bit characters); the arguments contain no NUL, as the
    elements of argv.  The type of doubles is a parameter [D]; [atof] is a parameter of [clap_parse]
    (its result is only copied).  Text written to std::cout is not modelled except for help(), whose
    lines are returned as data. *)
From Coq Require Export String Ascii.
From Verif Require Import Cpp.
Local Open Scope Z_scope.

(** ** The C library functions used *)

(** isdigit(arg[1]), char being signed: values 128..254 are negative and not EOF, hence undefined;
    value 255 is EOF.  (C library; used in CmdLineArgParser.h:84) *)
Definition c_isdigit (c : ascii) : res bool :=
  let n := Z.of_N (N_of_ascii c) in
  if (128 <=? n) && (n <? 255) then Undef BadChar
  else Ok ((48 <=? n) && (n <=? 57)).

(** The value of a digit. *)
Definition digit_val (c : ascii) : option Z :=
  let n := Z.of_N (N_of_ascii c) in
  if (48 <=? n) && (n <=? 57) then Some (n - 48) else None.

(** isspace in the "C" locale. *)
Definition c_isspace (c : ascii) : bool :=
  let n := Z.of_N (N_of_ascii c) in
  (n =? 32) || ((9 <=? n) && (n <=? 13)).

(** The digits accumulated by strtol; stops at the first other character. *)
Fixpoint atoi_digits (acc : Z) (s : string) : Z :=
  match s with
  | EmptyString => acc
  | String c t => match digit_val c with
                  | Some d => atoi_digits (10 * acc + d) t
                  | None => acc
                  end
  end.

Fixpoint skip_spaces (s : string) : string :=
  match s with
  | String c t => if c_isspace c then skip_spaces t else s
  | EmptyString => EmptyString
  end.

(** atoi: white space, optional sign, digits; undefined when the value is not an int.
    (C library; used in CmdLineArgParser.h:127) *)
Definition c_atoi (s : string) : res Z :=
  let z := match skip_spaces s with
           | String "-" t => - atoi_digits 0 t
           | String "+" t => atoi_digits 0 t
           | t => atoi_digits 0 t
           end in
  if int_range z then Ok z else Undef NumRange.

(** ** The class *)

Section Clap.
  Context {D : Type}.

  (** CmdLineArgParser.h:237-256 *)
  Record clap : Type := mkClap {
    cl_double : list (string * D);
    cl_int : list (string * Z);
    cl_string : list (string * string);
    cl_bool : list (string * bool);
    cl_doubleHelp : list (string * string);
    cl_intHelp : list (string * string);
    cl_stringHelp : list (string * string);
    cl_boolHelp : list (string * string);
    cl_execName : string;
    cl_purpose : string;
    cl_footer : string
  }.

  (** set(name, double, help), CmdLineArgParser.h:42-47 *)
  Definition clap_setDouble (p : clap) (name : string) (v : D) (help : string) : clap :=
    mkClap (omap_set String.compare name v (cl_double p)) (cl_int p) (cl_string p) (cl_bool p)
           (omap_set String.compare name help (cl_doubleHelp p)) (cl_intHelp p) (cl_stringHelp p) (cl_boolHelp p)
           (cl_execName p) (cl_purpose p) (cl_footer p).

  (** set(name, int, help), CmdLineArgParser.h:48-53 *)
  Definition clap_setInt (p : clap) (name : string) (v : Z) (help : string) : clap :=
    mkClap (cl_double p) (omap_set String.compare name v (cl_int p)) (cl_string p) (cl_bool p)
           (cl_doubleHelp p) (omap_set String.compare name help (cl_intHelp p)) (cl_stringHelp p) (cl_boolHelp p)
           (cl_execName p) (cl_purpose p) (cl_footer p).

  (** set(name, string, help), CmdLineArgParser.h:54-59 *)
  Definition clap_setString (p : clap) (name : string) (v : string) (help : string) : clap :=
    mkClap (cl_double p) (cl_int p) (omap_set String.compare name v (cl_string p)) (cl_bool p)
           (cl_doubleHelp p) (cl_intHelp p) (omap_set String.compare name help (cl_stringHelp p)) (cl_boolHelp p)
           (cl_execName p) (cl_purpose p) (cl_footer p).

  (** set(name, bool, help), CmdLineArgParser.h:60-65 *)
  Definition clap_setBool (p : clap) (name : string) (v : bool) (help : string) : clap :=
    mkClap (cl_double p) (cl_int p) (cl_string p) (omap_set String.compare name v (cl_bool p))
           (cl_doubleHelp p) (cl_intHelp p) (cl_stringHelp p) (omap_set String.compare name help (cl_boolHelp p))
           (cl_execName p) (cl_purpose p) (cl_footer p).

  Definition newline : string := String (ascii_of_N 10) EmptyString.

  (** constructor, CmdLineArgParser.h:29-33 *)
  Definition clap_new : clap :=
    let p := clap_setBool (mkClap [] [] [] [] [] [] [] [] "" "" "") "-h" false "Print help." in
    mkClap (cl_double p) (cl_int p) (cl_string p) (cl_bool p)
           (cl_doubleHelp p) (cl_intHelp p) (cl_stringHelp p) (cl_boolHelp p)
           (cl_execName p) (cl_purpose p) (newline ++ "Report bugs to alexander@gokliya.net" ++ newline).

  (** setPurpose, CmdLineArgParser.h:175-177 *)
  Definition clap_setPurpose (p : clap) (s : string) : clap :=
    mkClap (cl_double p) (cl_int p) (cl_string p) (cl_bool p)
           (cl_doubleHelp p) (cl_intHelp p) (cl_stringHelp p) (cl_boolHelp p)
           (cl_execName p) s (cl_footer p).

  (** addFootnote, CmdLineArgParser.h:221-223 *)
  Definition clap_addFootnote (p : clap) (s : string) : clap :=
    mkClap (cl_double p) (cl_int p) (cl_string p) (cl_bool p)
           (cl_doubleHelp p) (cl_intHelp p) (cl_stringHelp p) (cl_boolHelp p)
           (cl_execName p) (cl_purpose p) (s ++ newline ++ cl_footer p).

  (** isOptionName, CmdLineArgParser.h:83-84 (arg[0] of an empty string is NUL) *)
  Definition clap_isOptionName (arg : string) : res bool :=
    match arg with
    | String "-" (String c _) => d <- c_isdigit c ;; Ok (negb d)
    | _ => Ok false
    end.

  (** isValidOptName, CmdLineArgParser.h:86-90 *)
  Definition clap_isValidOptName (p : clap) (arg : string) : bool :=
    match omap_find String.compare arg (cl_double p) with Some _ => true | None =>
    match omap_find String.compare arg (cl_int p) with Some _ => true | None =>
    match omap_find String.compare arg (cl_string p) with Some _ => true | None =>
    match omap_find String.compare arg (cl_bool p) with Some _ => true | None => false
    end end end end.

  (** first loop of parse, CmdLineArgParser.h:80-96 *)
  Fixpoint clap_validate (p : clap) (args : list string) : res bool :=
    match args with
    | [] => Ok true
    | arg :: t =>
        isOptionName <- clap_isOptionName arg ;;
        if isOptionName && negb (clap_isValidOptName p arg) then Ok false
        else clap_validate p t
    end.

  (** body of the loops over doubleArg, intArg and stringArg, CmdLineArgParser.h:101-115, 120-134, 139-153.
      The state is (i->second, isArgVal); nm is never read and is left out. *)
  Definition clap_scan {V : Type} (conv : string -> res V) (args : list string) (optKey : string) (v0 : V) : res V :=
    ' (v, _) <- for_each args
        (fun arg (s : V * bool) =>
           let (v, isArgVal) := s in
           ' (v, isArgVal) <- (if isArgVal then w <- conv arg ;; Ok (w, false) else Ok (v, isArgVal)) ;;
           Ok (v, if String.eqb optKey arg then true else isArgVal))
        (v0, false) ;;
    Ok v.

  (** body of the loop over boolArg, CmdLineArgParser.h:158-165 *)
  Definition clap_flip (args : list string) (optKey : string) (v0 : bool) : res bool :=
    for_each args (fun arg v => Ok (if String.eqb arg optKey then negb v else v)) v0.

  (** for (i = m.begin(); i != m.end(); ++i) i->second = f(i->first, i->second) *)
  Definition map_update {V : Type} (f : string -> V -> res V) (m : list (string * V)) : res (list (string * V)) :=
    mapM (fun kv => v <- f (fst kv) (snd kv) ;; Ok (fst kv, v)) m.

  (** parse(argc, argv), CmdLineArgParser.h:73-169 *)
  Definition clap_parse (atof : string -> D) (p : clap) (argv : list string) : res (bool * clap) :=
    exec <- vget argv 0 ;;
    let p := mkClap (cl_double p) (cl_int p) (cl_string p) (cl_bool p)
                    (cl_doubleHelp p) (cl_intHelp p) (cl_stringHelp p) (cl_boolHelp p)
                    exec (cl_purpose p) (cl_footer p) in
    let args := tl argv in
    valid <- clap_validate p args ;;
    if negb valid then Ok (false, p)
    else
      doubles <- map_update (clap_scan (fun s => Ok (atof s)) args) (cl_double p) ;;
      ints <- map_update (clap_scan c_atoi args) (cl_int p) ;;
      strings <- map_update (clap_scan (fun s => Ok s) args) (cl_string p) ;;
      bools <- map_update (clap_flip args) (cl_bool p) ;;
      Ok (true, mkClap doubles ints strings bools
                       (cl_doubleHelp p) (cl_intHelp p) (cl_stringHelp p) (cl_boolHelp p)
                       (cl_execName p) (cl_purpose p) (cl_footer p)).

  (** One line of the options part of help(). *)
  Inductive help_line : Type :=
  | HDouble (name help : string) (v : D)
  | HInt (name help : string) (v : Z)
  | HString (name help : string) (v : string)
  | HBool (name help : string) (v : bool).

  (** help(), CmdLineArgParser.h:182-215: (purpose, execName, option lines, footer) *)
  Definition clap_help (p : clap) : res (string * string * list help_line * string) :=
    ds <- mapM (fun kv => h <- omap_at String.compare (fst kv) (cl_doubleHelp p) ;; Ok (HDouble (fst kv) h (snd kv))) (cl_double p) ;;
    is <- mapM (fun kv => h <- omap_at String.compare (fst kv) (cl_intHelp p) ;; Ok (HInt (fst kv) h (snd kv))) (cl_int p) ;;
    ss <- mapM (fun kv => h <- omap_at String.compare (fst kv) (cl_stringHelp p) ;; Ok (HString (fst kv) h (snd kv))) (cl_string p) ;;
    bs <- mapM (fun kv => h <- omap_at String.compare (fst kv) (cl_boolHelp p) ;; Ok (HBool (fst kv) h (snd kv))) (cl_bool p) ;;
    Ok (cl_purpose p, cl_execName p, (ds ++ is ++ ss ++ bs)%list, cl_footer p).

  (** get<double>, CmdLineArgParser.cpp:18-26; [negmax] is -numeric_limits<double>::max() *)
  Definition clap_getDouble (negmax : D) (p : clap) (name : string) : D :=
    match omap_find String.compare name (cl_double p) with Some v => v | None => negmax end.

  (** get<int>, CmdLineArgParser.cpp:28-36 *)
  Definition clap_getInt (p : clap) (name : string) : Z :=
    match omap_find String.compare name (cl_int p) with Some v => v | None => - int_max end.

  (** get<std::string>, CmdLineArgParser.cpp:38-47 *)
  Definition clap_getString (p : clap) (name : string) : string :=
    match omap_find String.compare name (cl_string p) with Some v => v | None => "" end.

  (** get<bool>, CmdLineArgParser.cpp:50-59 *)
  Definition clap_getBool (p : clap) (name : string) : bool :=
    match omap_find String.compare name (cl_bool p) with Some v => v | None => false end.
End Clap.
Arguments clap D : clear implicits.
Arguments help_line D : clear implicits.
