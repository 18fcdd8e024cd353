(** * Model of how the codecs read their parameters (Python 2):

    compressor/http2/__init__.py lines 43-48 and 77-97, compressor/headerdiff/__init__.py
    lines 67-138 with headerDiffCodec.py lines 92-110, compressor/delta2/spdy4_codec_impl.py
    lines 776-823, compressor/delta/spdy4_codec_impl.py lines 820-841,
    compressor/simple/__init__.py lines 88-111, compressor/spdy3/__init__.py line 14 and
    compressor/fork/__init__.py lines 15-19.  The other codecs ignore theirs.

    The parameters are the list lib/processors.py makes of the text after the
    first equals sign ([parse_spec] of Lib_Model).  A dictionary is an
    association list; the values the code puts in one are of the type [pv]. *)
From Coq Require Import String List NArith ZArith Bool.
From Verif Require Import PyBase HD_Model D2Code_Model PyStr.
Import ListNotations.
Open Scope N_scope.
Open Scope py_scope.

(** ** int(text) *)

Fixpoint digits_value (acc : N) (s : str) : option N :=
  match s with
  | [] => Some acc
  | c :: r => if (48 <=? c) && (c <=? 57) then digits_value (10 * acc + (c - 48)) r else None
  end.

(** int() of a text (PyInt_FromString, PyOS_strtol and PyOS_strtoul of
    CPython 2.7): blanks around, a sign, and blanks again after the sign. *)
Definition py_int (s : str) : res Z :=
  let s := strip is_space s in
  let '(neg, r) := match s with
                   | [] => (false, s)
                   | c :: r => if c =? 45 then (true, lstrip is_space r)
                               else if c =? 43 then (false, lstrip is_space r) else (false, s)
                   end in
  match r with
  | [] => Err ValueError
  | _ => match digits_value 0 r with
         | Some n => Ok (if neg then - Z.of_N n else Z.of_N n)%Z
         | None => Err ValueError
         end
  end.

(** int(value) where value may be None. *)
Definition int_of (v : option str) : res Z := match v with None => Err TypeError | Some s => py_int s end.

(** ** Reading the list *)

Inductive pv := VInt (z : Z) | VBool (b : bool) | VText (v : option str) | VDelta (t : dtype).

(** http2 lines 85-94 and headerdiff lines 119-128; [convert] is param_functions. *)
Fixpoint read_params (convert : str -> option (option str -> res pv)) (ps : list str) (d : dict pv) : res (dict pv) :=
  match ps with
  | [] => Ok d
  | p :: r =>
      let '(n, v) := split_once 61 p in
      let* x := match convert n with Some f => f v | None => Ok (VText v) end in
      read_params convert r (dset d n x)
  end.

Definition as_int (v : option str) : res pv := let* z := int_of v in Ok (VInt z).

(** ** http2 *)

Definition http2_functions (n : str) : option (option str -> res pv) :=
  if str_eqb n (lit "buffer_size") then Some as_int else None.

(** The truth of a value. *)
Definition truth (x : pv) : bool :=
  match x with
  | VInt z => negb (z =? 0)%Z
  | VBool b => b
  | VText None => false
  | VText (Some s) => match s with [] => false | _ => true end
  | VDelta _ => true
  end.

(** Lines 77-97 with HTTP2Codec.__init__, http2Codec.py lines 49-71: the size
    of the tables, and whether they start with the request headers.  Other
    names are taken by **kwargs and dropped, except that of the object itself. *)
Definition http2_args (is_request : bool) (ps : list str) : res (Z * bool) :=
  let* d := read_params http2_functions ps [(lit "is_request", VBool is_request); (lit "buffer_size", VInt 4096)] in
  if din d (lit "self") then Err TypeError
  else match dget d (lit "buffer_size"), dget d (lit "is_request") with
       | Some (VInt z), Some x => Ok (z, truth x)
       | _, _ => Err KeyError
       end.

(** ** headerdiff *)

(** parse_bool, lines 73-79. *)
Definition parse_bool (v : option str) : bool :=
  match v with None => true | Some s => negb (str_eqb (lower s) (lit "false")) end.

Definition is_quote (c : N) : bool := (c =? 34) || (c =? 39).

(** parse_delta, lines 81-96; int() raises nothing but ValueError here. *)
Definition parse_delta (v : option str) : dtype :=
  match v with
  | None => DFull
  | Some s =>
      let s := strip is_space s in
      match py_int s with
      | Ok z => DMax z
      | Err _ => match s with [] => DFull | _ => DBound (strip is_quote s) end
      end
  end.

Definition hd_functions (n : str) : option (option str -> res pv) :=
  if str_eqb n (lit "buffer") then Some as_int
  else if str_eqb n (lit "deflate") then Some as_int
  else if str_eqb n (lit "delta") then Some (fun v => Ok (VBool (parse_bool v)))
  else if str_eqb n (lit "delta_type") then Some (fun v => Ok (VDelta (parse_delta v)))
  else if str_eqb n (lit "huffman") then Some (fun v => Ok (VBool (parse_bool v)))
  else None.

(** s.replace(old, new), [old] not empty; [skip]: characters of an occurrence still to come. *)
Fixpoint is_prefix (a s : str) : bool :=
  match a, s with
  | [], _ => true
  | x :: a', y :: s' => (x =? y) && is_prefix a' s'
  | _, [] => false
  end.
Fixpoint replace_from (old new : str) (skip : nat) (s : str) : str :=
  match s with
  | [] => []
  | c :: r =>
      match skip with
      | S k => replace_from old new k r
      | O => if is_prefix old s then new ++ replace_from old new (length old - 1) r else c :: replace_from old new 0 r
      end
  end.
Definition replace (old new s : str) : str := replace_from old new 0 s.

(** What the codec is made with: headerDiffCodec.py lines 92-110. *)
Record hd_args := mk_hd_args { ha_buffer : Z; ha_window : option Z; ha_delta : bool; ha_dtype : dtype; ha_huffman : bool }.

(** Headerdiff's __init__.py lines 109-138 with headerDiffCodec.py lines 107-109. *)
Definition hd_params (ps : list str) : res hd_args :=
  let* d := read_params hd_functions ps
    [(lit "buffer", VInt 32768); (lit "deflate", VText None); (lit "delta", VBool true);
     (lit "delta_type", VDelta DFull); (lit "huffman", VBool false)] in
  match dget d (lit "buffer"), dget d (lit "deflate"), dget d (lit "delta"), dget d (lit "delta_type"), dget d (lit "huffman") with
  | Some (VInt b), Some w, Some (VBool u), Some (VDelta t), Some (VBool h) =>
      Ok (mk_hd_args b (match w with VInt z => Some z | _ => None end) u
            (match t with DBound l => DBound (replace (lit "\coma") (lit ",") l) | _ => t end) h)
  | _, _, _, _, _ => Err KeyError
  end.

(** ** delta2 and delta *)

(** Delta2 lines 791-797, delta lines 821-827: splitting at every equals sign and
    joining all pieces but the first again is splitting at the first one. *)
Definition param_dict (ps : list str) : dict (option str) :=
  fold_left (fun d p => let '(n, v) := split_once 61 p in dset d n v) ps [].

(** IsTrueWithDefault, delta2 lines 776-785. *)
Definition is_true (d : dict (option str)) (key : str) (default : bool) : bool :=
  match dget d key with
  | None | Some None => default
  | Some (Some s) => mem_str s [lit "True"; lit "true"; lit "1"; lit "t"]
  end.

Definition int_param (d : dict (option str)) (key : str) : res (option Z) :=
  match dget d key with None => Ok None | Some v => let* z := int_of v in Ok (Some z) end.

(** Delta2 lines 799-823; [config] of D2Code_Model goes on from there. *)
Definition d2_params (ps : list str) : res options :=
  let d := param_dict ps in
  let* b := int_param d (lit "max_byte_size") in
  let* e := int_param d (lit "max_entries") in
  Ok (mk_options b e (is_true d (lit "small_index") true) (is_true d (lit "varint_encoding") true)
        (is_true d (lit "hg_adjust") false) (is_true d (lit "implicit_hg_add") false) (is_true d (lit "refcnt_vals") false)
        (is_true d (lit "only_etoggles") false) (is_true d (lit "idx_from_end") true)).

(** Delta lines 829-835: the sizes given to Storage. *)
Definition d1_params (ps : list str) : res (Z * Z) :=
  let d := param_dict ps in
  let* b := int_param d (lit "max_byte_size") in
  let* e := int_param d (lit "max_entries") in
  Ok (match b with Some z => z | None => 16 * 1024 end, match e with Some z => z | None => 4096 end)%Z.

(** ** simple, spdy3 and fork *)

Inductive s_coding := Seven | ZHuffman | Plain.
Record s_args := mk_s_args { sa_coding : s_coding; sa_dates : bool; sa_max : Z }.

(** Simple lines 93-110. *)
Definition s_params (ps : list str) : res s_args :=
  let coding := if mem_str (lit "seven") ps then Seven else if mem_str (lit "huffman") ps then ZHuffman else Plain in
  let pd := fold_left (fun d p => match split_once 61 p with (n, Some v) => dset d n v | (_, None) => d end) ps [] in
  let* m := py_int (match dget pd (lit "max_entries") with Some v => v | None => lit "9999999999" end) in
  Ok (mk_s_args coding (mem_str (lit "date") ps) m).

(** Spdy3 line 14: is the dictionary fed to the compressor first? *)
Definition spdy3_params (ps : list str) : bool := mem_str (lit "dict") ps.

(** Fork lines 15-19: the program, and whether its answers begin with their sizes. *)
Definition fork_params (ps : list str) : res (str * bool) :=
  match ps with [] => Err IndexError | p :: r => Ok (p, mem_str (lit "bin") r) end.
