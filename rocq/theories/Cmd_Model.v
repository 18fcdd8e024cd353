(** * Model of the command line: compare_compressors.py lines 86-127 and the parts
      of Python's optparse that they use.

    From optparse (standard library): OptionParser._process_args, _process_long_opt,
    _process_short_opts, _match_abbrev and Option.process.

    Simplifications:
    - what is printed (help, usage and error messages) is left out: [Exit] has the
      exit status only;
    - [read_int] is optparse's conversion of an integer (_parse_int), which is
      Python's int() except for texts that begin with 0. *)
From Coq Require Import String List NArith ZArith Bool.
From Verif Require Import PyBase PyStr.
Import ListNotations.
Open Scope N_scope.

(** The options, lines 89-126; optparse adds --help. *)
Inductive opt := Help | Verbose | Debug | Codec | Baseline | Tsv | Streamifier | Prefix.
Definition takes_value (o : opt) : bool := match o with Help | Debug | Tsv => false | _ => true end.

Definition short_opt (c : N) : option opt :=
  if c =? 104 then Some Help else if c =? 118 then Some Verbose else if c =? 100 then Some Debug else if c =? 99 then Some Codec
  else if c =? 98 then Some Baseline else if c =? 116 then Some Tsv else if c =? 115 then Some Streamifier else None.

Definition long_opts : list (str * opt) :=
  [(lit "--help", Help); (lit "--verbose", Verbose); (lit "--debug", Debug); (lit "--codec", Codec); (lit "--baseline", Baseline);
   (lit "--tsv", Tsv); (lit "--streamifier", Streamifier); (lit "--prefix", Prefix)].

Record values := mk_values {
  v_verbose : Z; v_debug : bool; v_codecs : list str; v_baseline : option str; v_tsv : bool; v_streamifier : str; v_prefix : str }.
Definition defaults : values := mk_values 0 false [] None false (lit "public_suffix") [].

Inductive result := Parsed (v : values) (files : list str) | Exit (code : N).

(** str.startswith. *)
Fixpoint starts_with (s p : str) : bool :=
  match p, s with [], _ => true | _, [] => false | x :: p, y :: s => (x =? y) && starts_with s p end.

(** _match_abbrev. *)
Definition match_abbrev (s : str) : option opt :=
  match find (fun '(w, _) => str_eqb w s) long_opts with
  | Some (_, o) => Some o
  | None => match filter (fun '(w, _) => starts_with w s) long_opts with [(_, o)] => Some o | _ => None end
  end.

Section Parse.
  Variable read_int : str -> option Z.

  (** Option.process for an option with a value; [None] is an error. *)
  Definition store (o : opt) (x : str) (v : values) : option values :=
    match o with
    | Verbose => match read_int x with
                 | Some z => Some (mk_values z (v_debug v) (v_codecs v) (v_baseline v) (v_tsv v) (v_streamifier v) (v_prefix v))
                 | None => None
                 end
    | Codec => Some (mk_values (v_verbose v) (v_debug v) (v_codecs v ++ [x]) (v_baseline v) (v_tsv v) (v_streamifier v) (v_prefix v))
    | Baseline => Some (mk_values (v_verbose v) (v_debug v) (v_codecs v) (Some x) (v_tsv v) (v_streamifier v) (v_prefix v))
    | Streamifier => Some (mk_values (v_verbose v) (v_debug v) (v_codecs v) (v_baseline v) (v_tsv v) x (v_prefix v))
    | Prefix => Some (mk_values (v_verbose v) (v_debug v) (v_codecs v) (v_baseline v) (v_tsv v) (v_streamifier v) x)
    | _ => None
    end.
  (** ... and without one; [None] is --help. *)
  Definition flag (o : opt) (v : values) : option values :=
    match o with
    | Debug => Some (mk_values (v_verbose v) true (v_codecs v) (v_baseline v) (v_tsv v) (v_streamifier v) (v_prefix v))
    | Tsv => Some (mk_values (v_verbose v) (v_debug v) (v_codecs v) (v_baseline v) true (v_streamifier v) (v_prefix v))
    | _ => None
    end.

  (** _process_short_opts up to the option that takes a value: what is left of the
      argument is its value unless it is empty. *)
  Inductive cluster_end := Flags (v : values) | Wants (v : values) (o : opt) (left : str) | Stop (code : N).
  Fixpoint cluster (s : str) (v : values) : cluster_end :=
    match s with
    | [] => Flags v
    | c :: s =>
        match short_opt c with
        | None => Stop 2
        | Some o => if takes_value o then Wants v o s
                    else match flag o v with None => Stop 0 | Some v => cluster s v end
        end
    end.

  (** _process_args. *)
  Fixpoint parse_args (argv : list str) (v : values) (largs : list str) {struct argv} : result :=
    match argv with
    | [] => Parsed v largs
    | a :: rest =>
        if str_eqb a (lit "--") then Parsed v (largs ++ rest)
        else if starts_with a (lit "--") then
          let '(name, attached) := split_once 61 a in
          match match_abbrev name with
          | None => Exit 2
          | Some o =>
              if takes_value o then
                match attached with
                | Some x => match store o x v with None => Exit 2 | Some v => parse_args rest v largs end
                | None => match rest with
                          | [] => Exit 2
                          | x :: rest => match store o x v with None => Exit 2 | Some v => parse_args rest v largs end
                          end
                end
              else match attached with
                   | Some _ => Exit 2
                   | None => match flag o v with None => Exit 0 | Some v => parse_args rest v largs end
                   end
          end
        else if starts_with a (lit "-") && (1 <? lenN a) then
          match cluster (tl a) v with
          | Stop c => Exit c
          | Flags v => parse_args rest v largs
          | Wants v o [] => match rest with
                            | [] => Exit 2
                            | x :: rest => match store o x v with None => Exit 2 | Some v => parse_args rest v largs end
                            end
          | Wants v o x => match store o x v with None => Exit 2 | Some v => parse_args rest v largs end
          end
        else parse_args rest v (largs ++ [a])
    end.

  (** Lines 86-127, called in line 34. *)
  Definition parse_options (argv : list str) : result := parse_args argv defaults [].
End Parse.
