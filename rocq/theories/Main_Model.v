(** * Model of the program as a whole: compare_compressors.py from the command
      line and the files to the reports, with lib/harfile.py lines 18-29.

    Put together from Cmd_Model (the command line), Run_Model (processors,
    sessions, reports) and Lib_Model (HAR files, streamifiers).

    Simplifications:
    - a file is what open, read and json.loads make of it ([on_disk]): it cannot
      be opened; it can, but reading or parsing raises; or it is a HAR object.
      JSON of any other shape raises some exception in har2hdrs ([Misshapen]);
    - the locale (lines 132-136) is taken to be installed, and TSV files can be
      written;
    - what [finish] prints is its report (see Run_Model); [Processing] marks the
      place where standard output is first written to. *)
From Coq Require Import String List NArith ZArith Bool.
From Verif Require Import PyBase Lib_Model Run_Model Cmd_Model PyStr.
Import ListNotations.
Open Scope N_scope.
Open Scope py_scope.

Inductive on_disk := Missing | Unparsable | Misshapen (e : exn) | Har (entries : list har_entry).
(** IOError, or one of the exceptions of PyBase. *)
Inductive failure := IOErr | Exc (e : exn).
Inductive event := Opened (f : str) | Closed (f : str) | Told (text : str) | Processing.
Inductive ending := Reported (r : report) | Raised (e : failure) | Exited (code : N).

Section Main.
  Variable disk : str -> on_disk.
  Variable urlsplit : str -> res (str * str * str).
  (** The public suffix list; None: the package publicsuffix is not there. *)
  Variable psl : option (str -> str).
  (** What comes of importing anything else as a streamifier. *)
  Variable other_streamifier : str -> exn.
  Variable read_int : str -> option Z.
  Variable St : Type.
  Variable construct : str -> bool -> list str -> res St.
  Variable p_compress : str -> St -> hdict -> str -> res (St * str).
  Variable p_decompress : str -> St -> str -> res (St * option hdict).
  Variable ord : list (str * str) -> list (str * str).

  (** read_har_file, harfile.py lines 18-29.  Line 25 writes an exception object
      to standard error, which raises TypeError before line 26; the finally
      clause closes the file all the same. *)
  Definition read_har_file (f : str) : list event * (failure + (list hdict * list hdict)) :=
    match disk f with
    | Missing => ([], inl IOErr)
    | Unparsable => ([Opened f; Told (lit "Unable to parse " ++ f ++ [10; 10]); Closed f], inl (Exc TypeError))
    | Misshapen e => ([Opened f; Closed f], inl (Exc e))
    | Har es => ([Opened f; Closed f], match har2hdrs urlsplit es with Ok x => inr x | Err e => inl (Exc e) end)
    end.

  (** load_streamifier, compare_compressors.py lines 80-84. *)
  Definition load_streamifier (name : str) : failure + (list exchange -> res (list stream_desc)) :=
    if str_eqb name (lit "host") then inr streamify_host
    else if str_eqb name (lit "all_one") then inr streamify_all_one
    else if str_eqb name (lit "public_suffix") then
      match psl with Some p => inr (streamify_public_suffix p) | None => inl (Exc ImportError) end
    else inl (Exc (other_streamifier name)).

  (** Lines 49-53. *)
  Fixpoint read_all (streamify : list exchange -> res (list stream_desc)) (files : list str)
    : list event * (failure + list stream_desc) :=
    match files with
    | [] => ([], inr [])
    | f :: fs =>
        match read_har_file f with
        | (ev, inl e) => (ev, inl e)
        | (ev, inr (reqs, ress)) =>
            match streamify (combine reqs ress) with
            | Err e => (ev, inl (Exc e))
            | Ok s => let '(ev', r) := read_all streamify fs in
                      (ev ++ ev', match r with inl e => inl e | inr ss => inr (s ++ ss) end)
            end
        end
    end.

  Definition opts_of (v : values) : opts :=
    mkOpts (0 <? v_verbose v)%Z (v_debug v) (v_codecs v) (v_baseline v) (v_tsv v).

  (** Lines 54-78: [run] of Run_Model from there on. *)
  Definition finish (o : opts) (procs : list str) (ss : list stream_desc) : res report :=
    let* (objs, reps) := run_sessions St construct p_compress p_decompress ord o procs 0 ss in
    let st := mkStore (map sd_msgs ss) objs in
    let* (st, req) := print_total o procs ss true st in
    let* (st, rsp) := print_total o procs ss false st in
    Ok (mkReport reps req rsp
          (if o_tsv o then Some (tsv_rows procs (firstn (length ss) (s_objs st)) 0 0) else None)).

  (** Lines 33-45 and 137. *)
  Definition program (argv : list str) : list event * ending :=
    match parse_options read_int argv with
    | Exit c => ([], Exited c)
    | Parsed v files =>
        match construct_all St construct (names_of (opts_of v)) with
        | Err e => ([], Raised (Exc e))
        | Ok procs =>
            match load_streamifier (v_streamifier v) with
            | inl e => ([], Raised e)
            | inr streamify =>
                match read_all streamify files with
                | (ev, inl e) => (ev, Raised e)
                | (ev, inr ss) =>
                    (ev ++ [Processing], match finish (opts_of v) procs ss with Ok r => Reported r | Err e => Raised (Exc e) end)
                end
            end
        end
    end.

  (** The status with which the process ends. *)
  Definition status (e : ending) : N := match e with Reported _ => 0 | Raised _ => 1 | Exited c => c end.
End Main.
