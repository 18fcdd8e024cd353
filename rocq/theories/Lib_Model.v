(** * Model of lib/ : processors.py, stream.py, harfile.py, streamifiers/.

    A header dictionary is an association list in iteration order.  Sets are
    duplicate-free lists; where their iteration order reaches the output the
    model takes an order oracle.  Texts are lists of code points;
    [lower]/[strip] act on ASCII. *)
From Coq Require Import String List NArith ZArith Bool.
From Verif Require Import PyBase PyStr.
Import ListNotations.
Open Scope N_scope.
Open Scope py_scope.

Definition hdict := dict str.

Definition pair_eq_dec (a b : str * str) : {a = b} + {a <> b}.
Proof. decide equality; apply str_eq_dec. Defined.

(** ** lib/processors.py: comparison *)

(** The split list of one header, lines 18-21 (a set; duplicates are removed
    when the pairs are collected). *)
Definition split_value (k v : str) : list str :=
  if str_eqb k (lit "cookie") then map (strip is_blank) (split_on 59 v)
  else map (strip is_blank) (split_on 0 v).

(** NormalizeDict, lines 13-24. *)
Definition normalize_dict (ignores : list str) (d : hdict) : list (str * str) :=
  nodup pair_eq_dec
    (flat_map (fun '(k, v) => if mem_str k ignores then [] else map (pair k) (split_value k v)) d).

Definition mem_pair (x : str * str) (l : list (str * str)) : bool :=
  if in_dec pair_eq_dec x l then true else false.

(** compare_headers_impl, lines 12-31: a_only and b_only ('shared' is never
    used). *)
Definition compare_headers_impl (a b : hdict) (ignores : list str)
  : list (str * str) * list (str * str) :=
  let a_hdr := normalize_dict ignores a in
  let b_hdr := normalize_dict ignores b in
  (filter (fun x => negb (mem_pair x b_hdr)) a_hdr,
   filter (fun x => negb (mem_pair x a_hdr)) b_hdr).

(** One half of the message, lines 186-189 and 190-193. *)
Definition report_only (name : str) (only : list (str * str)) : list str :=
  match only with
  | [] => []
  | _ => (lit "Only found in: " ++ name) ::
         map (fun '(k, v) => [9] ++ k ++ lit ": " ++ v) only
  end.

Definition compare_ignores : list str := [lit ":version"; lit ":status-text"; lit "connection"].

(** compare_headers, lines 169-194.  [ord] is the iteration order of the two
    difference sets. *)
Definition compare_headers (ord : list (str * str) -> list (str * str))
    (a : hdict) (a_name : str) (b : hdict) (b_name : str) : str :=
  let '(a_only, b_only) := compare_headers_impl a b compare_ignores in
  join [10] (report_only a_name (ord a_only) ++ report_only b_name (ord b_only)).

(** ** lib/processors.py: filtering *)

(** filter_headers, lines 86-96. *)
Definition filter_headers (hdrs : hdict) : hdict :=
  let ignore_hdrs :=
    [lit ":status-text"; lit ":version"; lit "keep-alive"; lit "connection"] ++
    match dget hdrs (lit "connection") with
    | Some c => map (strip is_blank) (split_on 44 c)
    | None => []
    end in
  fold_left (fun new '(k, v) => if mem_str k ignore_hdrs then new else dset new k v) hdrs [].

(** ** lib/processors.py: running the processors *)

(** The parameter part of a processor option, lines 53-56. *)
Definition parse_params (param_str : str) : res (list str) :=
  match param_str with
  | [] => Err IndexError
  | c :: r =>
      let last := List.last r c in
      let inner := if (c =? last) && (last =? 34) then removelast r else param_str in
      Ok (map (strip is_space) (split_on 44 inner))
  end.

(** Lines 52-59: module name and parameters of one option. *)
Definition parse_spec (name : str) : res (str * list str) :=
  match split_once 61 name with
  | (m, Some ps) => let* params := parse_params ps in Ok (m, params)
  | (m, None) => Ok (m, [])
  end.

(** BaseProcessor.__init__, compressor/__init__.py lines 14-18: the display
    name; __module__ is "compressor." followed by the module name. *)
Definition display_name (module : str) (params : list str) : str :=
  let name := List.last (split_on 46 (lit "compressor." ++ module)) [] in
  match params with
  | [] => name
  | _ => name ++ lit " (" ++ join (lit ", ") params ++ lit ")"
  end.

(** ratio: an exact fraction; [1.0] is (1, 1). *)
Definition ratio := (N * N)%type.

Section Processors.
  (** The processors: any family of deterministic state machines.  A
      constructor or method may raise; [None] from [p_decompress] stands for
      NotImplementedError. *)
  Variable St : Type.
  Variable construct : str -> bool -> list str -> res St.
  Variable p_compress : str -> St -> hdict -> str -> res (St * str).
  Variable p_decompress : str -> St -> str -> res (St * option hdict).
  Variable ord : list (str * str) -> list (str * str).

  (** A processor object: module, display name, state. *)
  Record proc := mkProc { p_mod : str; p_name : str; p_st : St }.

  (** get_processors, lines 47-64, for one direction. *)
  Fixpoint get_processors (is_req : bool) (names : list str) : res (list proc) :=
    match names with
    | [] => Ok []
    | n :: ns =>
        let* (m, ps) := parse_spec n in
        let* st := construct m is_req ps in
        let* r := get_processors is_req ns in
        Ok (mkProc m (display_name m ps) st :: r)
    end.

  (** The loop body of process_message, lines 114-157, without timing,
      printing and the 'warned' table: the new processor, the size, and
      whether a mismatch was reported. *)
  Definition process_one (debug : bool) (hdrs : hdict) (host : str) (p : proc)
    : res (proc * N * bool) :=
    let filtered := filter_headers hdrs in
    let* (st, compressed) := p_compress (p_mod p) (p_st p) filtered host in
    let* (st, decompressed) := p_decompress (p_mod p) st compressed in
    let p' := mkProc (p_mod p) (p_name p) st in
    match decompressed with
    | None => Ok (p', lenN compressed, false)
    | Some d =>
        match compare_headers ord filtered (lit "orig") d (p_name p) with
        | [] => Ok (p', lenN compressed, false)
        | _ => if debug then Err SystemExit else Ok (p', lenN compressed, true)
        end
    end.

  (** process_message, lines 98-158: processors afterwards, results (sizes by
      display name), names reported as mismatching. *)
  Fixpoint process_message (debug : bool) (procs : list proc) (hdrs : hdict) (host : str)
      (results : dict N) (mism : list str) : res (list proc * dict N * list str) :=
    match procs with
    | [] => Ok ([], results, mism)
    | p :: ps =>
        let* (p, size, bad) := process_one debug hdrs host p in
        let* (ps, results, mism) :=
          process_message debug ps hdrs host (dset results (p_name p) size)
            (if bad then mism ++ [p_name p] else mism) in
        Ok (p :: ps, results, mism)
    end.

  (** sizes / ratios of a stream: defaultdict(list). *)
  Definition dget_list {A} (d : dict (list A)) (k : str) : list A :=
    match dget d k with Some l => l | None => [] end.
  Definition dappend {A} (d : dict (list A)) (k : str) (x : A) : dict (list A) :=
    dset d k (dget_list d k ++ [x]).

  (** The recording loop, lines 78-83 (record_result: stream.py 26-30). *)
  Fixpoint record_results (baseline : str) (results todo : dict N)
      (sizes : dict (list N)) (ratios : dict (list ratio))
    : res (dict (list N) * dict (list ratio)) :=
    match todo with
    | [] => Ok (sizes, ratios)
    | (name, size) :: todo' =>
        let* r := (if str_eqb name baseline then Ok (1, 1)
                   else match dget results baseline with
                        | None => Err KeyError
                        | Some 0 => Err ZeroDivisionError
                        | Some b => Ok (size, b)
                        end) in
        record_results baseline results todo' (dappend sizes name size) (dappend ratios name r)
    end.

  Fixpoint session_loop (debug : bool) (baseline : str) (procs : list proc)
      (msgs : list (hdict * str)) (sizes : dict (list N)) (ratios : dict (list ratio))
      (mism : list (list str)) : res (dict (list N) * dict (list ratio) * list (list str)) :=
    match msgs with
    | [] => Ok (sizes, ratios, mism)
    | (hdrs, host) :: msgs' =>
        let* (procs, results, bad) := process_message debug procs hdrs host [] [] in
        let* (sizes, ratios) := record_results baseline results results sizes ratios in
        session_loop debug baseline procs msgs' sizes ratios (mism ++ [bad])
    end.

  (** process_session, lines 66-83, on a stream with no results so far. *)
  Definition process_session (debug : bool) (baseline : str) (names : list str) (is_req : bool)
      (msgs : list (hdict * str)) : res (dict (list N) * dict (list ratio) * list (list str)) :=
    let* procs := get_processors is_req names in
    session_loop debug baseline procs msgs [] [] [].

  (** compare_compressors.py run, lines 53-58: all sessions in order. *)
  Fixpoint process_sessions (debug : bool) (baseline : str) (names : list str)
      (sessions : list (bool * list (hdict * str)))
    : res (list (dict (list N) * dict (list ratio) * list (list str))) :=
    match sessions with
    | [] => Ok []
    | (is_req, msgs) :: ss =>
        let* r := process_session debug baseline names is_req msgs in
        let* rs := process_sessions debug baseline names ss in
        Ok (r :: rs)
    end.
End Processors.

(** ** lib/streamifiers *)

(** A request/response pair; an element of a stream is (headers, host). *)
Definition exchange := (hdict * hdict)%type.
Record stream_desc := mkStream { sd_name : str; sd_msgs : list (hdict * str); sd_req : bool }.

Definition ddefault {A} (d : dict (list A)) (k : str) (x : A) : dict (list A) :=
  dset d k (match dget d k with Some l => l | None => [] end ++ [x]).

(** The common loop of host.py lines 24-30 and public_suffix.py lines 27-33:
    [key host] names the stream, [shown host] is stored with the message. *)
Fixpoint group_loop (key shown : str -> str) (messages : list exchange)
    (names : list str) (reqs ress : dict (list (hdict * str)))
  : res (list str * dict (list (hdict * str)) * dict (list (hdict * str))) :=
  match messages with
  | [] => Ok (names, reqs, ress)
  | (rq, rs) :: ms =>
      match dget rq (lit ":host") with
      | None => Err KeyError
      | Some h =>
          let k := key h in
          let names := if mem_str k names then names else names ++ [k] in
          group_loop key shown ms names (ddefault reqs k (rq, shown h)) (ddefault ress k (rs, shown h))
      end
  end.

Definition dget_or_nil {A} (d : dict (list A)) (k : str) : list A :=
  match dget d k with Some l => l | None => [] end.

Definition group_streamify (key shown : str -> str) (messages : list exchange) : res (list stream_desc) :=
  let* (names, reqs, ress) := group_loop key shown messages [] [] [] in
  Ok (flat_map (fun n => [mkStream n (dget_or_nil reqs n) true; mkStream n (dget_or_nil ress n) false]) names).

(** host.py lines 14-36. *)
Definition streamify_host : list exchange -> res (list stream_desc) :=
  group_streamify (fun h => strip is_space (lower h)) (fun h => strip is_space (lower h)).

(** public_suffix.py lines 18-40; [psl] is PublicSuffixList.get_public_suffix. *)
Definition streamify_public_suffix (psl : str -> str) : list exchange -> res (list stream_desc) :=
  group_streamify (fun h => psl (fst (split_once 58 h))) (fun h => h).

(** all_one.py lines 9-17. *)
Fixpoint all_one_loop (messages : list exchange) (reqs ress : list (hdict * str))
  : res (list (hdict * str) * list (hdict * str)) :=
  match messages with
  | [] => Ok (reqs, ress)
  | (rq, rs) :: ms =>
      match dget rq (lit ":host") with
      | None => Err KeyError
      | Some h => all_one_loop ms (reqs ++ [(rq, h)]) (ress ++ [(rs, h)])
      end
  end.
Definition streamify_all_one (messages : list exchange) : res (list stream_desc) :=
  let* (reqs, ress) := all_one_loop messages [] [] in
  Ok [mkStream (lit "all") reqs true; mkStream (lit "all") ress false].

(** ** lib/stream.py: adding streams.

    Stream objects live in a store; [st_msgs] is the identity of the message
    list of a stream, so that aliasing is visible. *)
Section StreamStore.
  Variable M : Type.

  Record strm := mkStrm { st_name : str; st_msgs : nat; st_type : bool;
                          st_sizes : dict (list N); st_ratios : dict (list ratio) }.
  Record store := mkStore { s_lists : list (list M); s_objs : list strm }.

  (** merge_dols, lines 94-101. *)
  Definition merge_dols {A} (d1 d2 : dict (list A)) : dict (list A) :=
    let result := fold_left (fun d '(k, v) => dset d k v) d2 d1 in
    fold_left (fun d k => match dget d1 k, dget d2 k with
                          | Some a, Some b => dset d k (a ++ b)
                          | _, _ => d
                          end) (keys d1) result.

  (** Stream.__add__, lines 73-82: the new object shares the message list of
      [self]. *)
  Definition stream_add (s : store) (self other : nat) : res (store * nat) :=
    match nth_error (s_objs s) self, nth_error (s_objs s) other with
    | Some a, Some b =>
        if negb (Bool.eqb (st_type a) (st_type b)) then Err AssertionError
        else
          let ext := match nth_error (s_lists s) (st_msgs b) with Some l => l | None => [] end in
          let lists := update_nth (st_msgs a) (fun l => l ++ ext) (s_lists s) in
          let new := mkStrm [] (st_msgs a) (st_type a)
                       (merge_dols (st_sizes a) (st_sizes b))
                       (merge_dols (st_ratios a) (st_ratios b)) in
          Ok (mkStore lists (s_objs s ++ [new]), length (s_objs s))
    | _, _ => Err AttributeError (* impossible for valid ids *)
    end.

  Fixpoint reduce_add (s : store) (acc : nat) (ids : list nat) : res (store * nat) :=
    match ids with
    | [] => Ok (s, acc)
    | i :: ids' => let* (s, n) := stream_add s acc i in reduce_add s n ids'
    end.

  (** compare_compressors.py run, lines 60-62: reduce(operator.add, ...) and
      the renaming. *)
  Definition total_stream (s : store) (ids : list nat) : res (store * nat) :=
    match ids with
    | [] => Err TypeError
    | i :: ids' =>
        let* (s, n) := reduce_add s i ids' in
        Ok (mkStore (s_lists s)
              (update_nth n (fun o => mkStrm (lit "TOTAL") (st_msgs o) (st_type o) (st_sizes o) (st_ratios o))
                 (s_objs s)), n)
    end.
End StreamStore.
Arguments mkStore {M}.
Arguments s_lists {M}.
Arguments s_objs {M}.

(** ** lib/harfile.py *)

(** process_headers, lines 68-82.  A HAR header is (name, value). *)
Fixpoint process_headers_loop (hs : list (str * str)) (out : hdict) : res hdict :=
  match hs with
  | [] => Ok out
  | (n, v) :: hs' =>
      let name := lower n in
      match name with
      | [] => Err GenericException
      | _ =>
          let name := if str_eqb name (lit "host") then lit ":host" else name in
          process_headers_loop hs'
            (match dget out name with
             | Some old => dset out name (old ++ [0] ++ v)
             | None => dset out name v
             end)
      end
  end.
Definition process_headers (hs : list (str * str)) : res hdict := process_headers_loop hs [].

(** A HAR entry, the fields that are used; [h_status] is str(status). *)
Record har_entry := mkHar {
  h_url : str; h_method : str; h_req_version : str; h_req_headers : list (str * str);
  h_status : str; h_status_text : str; h_res_version : str; h_res_headers : list (str * str) }.

(** The re.sub of line 54.  Its pattern is: start of text, characters other
    than colon, colon slash slash, a group of characters other than slash,
    slash, any characters, end.  The dot does not match a newline, the dollar
    sign matches at the end or before a final newline. *)
Definition url_rest_ok (rest : str) : option str :=
  match split_once 10 rest with
  | (_, None) => Some []
  | (_, Some []) => Some [10]
  | (_, Some _) => None
  end.
Definition host_of_url (url : str) : str :=
  match split_once 58 url with
  | (_, Some (s1 :: s2 :: r)) =>
      if (s1 =? 47) && (s2 =? 47) then
        match split_once 47 r with
        | (host, Some rest) =>
            match url_rest_ok rest with Some tail => host ++ tail | None => url end
        | (_, None) => url
        end
      else url
  | _ => url
  end.

(** The re.sub of line 59: keep the leading digits, drop the rest of the
    first line. *)
Fixpoint take_digits (s : str) : str * str :=
  match s with
  | [] => ([], [])
  | c :: s' => if (48 <=? c) && (c <=? 57) then let '(a, b) := take_digits s' in (c :: a, b) else ([], s)
  end.
Definition status_digits (s : str) : str :=
  let '(ds, r) := take_digits s in
  match split_once 10 r with
  | (_, None) => ds
  | (_, Some rest) => ds ++ [10] ++ rest
  end.

(** STATUS_PHRASES, lines 101-127. *)
Definition STATUS_PHRASES : dict str := [
  (lit "200", lit "OK"); (lit "201", lit "Created"); (lit "202", lit "Accepted");
  (lit "203", lit "Non-Authoritative Information"); (lit "204", lit "No Content");
  (lit "205", lit "Reset Content"); (lit "206", lit "Partial Content");
  (lit "207", lit "Multi-Status"); (lit "300", lit "Multiple Choices");
  (lit "301", lit "Moved Permanently"); (lit "302", lit "Found"); (lit "303", lit "See Other");
  (lit "304", lit "Not Modified"); (lit "307", lit "Temporary Redirect");
  (lit "308", lit "Permanent Redirect"); (lit "400", lit "Bad Request");
  (lit "401", lit "Unauthorized"); (lit "403", lit "Forbidden"); (lit "404", lit "Not Found");
  (lit "405", lit "Method Not Allowed"); (lit "406", lit "Not Acceptable");
  (lit "408", lit "Request Timeout"); (lit "409", lit "Conflict"); (lit "410", lit "Gone");
  (lit "500", lit "Internal Server Error") ].

Section Har.
  (** urllib.parse.urlsplit: scheme, path, query (may raise). *)
  Variable urlsplit : str -> res (str * str * str).

  (** The test [":host" in request_headers] of line 53 compares a text with
      the header dictionaries collected so far: never equal. *)
  Definition str_is_dict (_ : str) (_ : hdict) : bool := false.

  (** Lines 46-54. *)
  Definition har_request (so_far : list hdict) (e : har_entry) (scheme path query : str) : res hdict :=
    let* headers := process_headers (h_req_headers e) in
    let headers := dset headers (lit ":method") (lower (h_method e)) in
    let headers := dset headers (lit ":path")
                     (match query with [] => path | _ => path ++ lit "?" ++ query end) in
    let headers := dset headers (lit ":scheme") (lower scheme) in
    let headers := dset headers (lit ":version") (h_req_version e) in
    Ok (if negb (existsb (str_is_dict (lit ":host")) so_far)
        then dset headers (lit ":host") (host_of_url (h_url e)) else headers).

  (** Lines 57-62. *)
  Definition har_response (e : har_entry) : res hdict :=
    let* headers := process_headers (h_res_headers e) in
    let status := status_digits (h_status e) in
    let headers := dset headers (lit ":status") status in
    let text := match strip is_space (h_status_text e) with
                | [] => match dget STATUS_PHRASES status with Some p => p | None => lit "unknown" end
                | t => t
                end in
    let headers := dset headers (lit ":status-text") text in
    Ok (dset headers (lit ":version") (h_res_version e)).

  (** har2hdrs, lines 32-65. *)
  Fixpoint har_loop (es : list har_entry) (reqs ress : list hdict) : res (list hdict * list hdict) :=
    match es with
    | [] => Ok (reqs, ress)
    | e :: es' =>
        let* (scheme, path, query) := urlsplit (h_url e) in
        if mem_str (lower scheme) [lit "http"; lit "https"] then
          let* rq := har_request reqs e scheme path query in
          let* rs := har_response e in
          har_loop es' (reqs ++ [rq]) (ress ++ [rs])
        else har_loop es' reqs ress
    end.
  Definition har2hdrs (es : list har_entry) : res (list hdict * list hdict) := har_loop es [] [].
End Har.
