(** compressor/hyper_hpack/__init__.py: the wrapper of the package [hpack], and
    what the harness does with its answer. *)
From Coq Require Import String List NArith ZArith Bool.
From Verif Require Import PyBase PyStr Lib_Model.
Import ListNotations.
Open Scope N_scope.
Open Scope py_scope.

Section Hpack.
  (** The package: hpack.Encoder() and hpack.Decoder(), [encode] of a list of
      (name, value, sensitive) and [decode], which returns a list of (name, value);
      both may raise. *)
  Variable E D : Type.
  Variable e_new : E.
  Variable d_new : D.
  Variable encode : E -> list (str * str * bool) -> res (E * str).
  Variable decode : D -> str -> res (D * list (str * str)).

  (** __init__, lines 6-10: [self.sensitive = []]. *)
  Definition hh_new : E * D := (e_new, d_new).
  Definition hh_sensitive : list str := [].

  (** compress, lines 12-14. *)
  Definition hh_compress (st : E * D) (in_headers : hdict) : res ((E * D) * str) :=
    let headers := map (fun '(n, v) => (n, v, mem_str (lower n) hh_sensitive)) in_headers in
    let* (e, out) := encode (fst st) headers in
    Ok ((e, snd st), out).

  (** decompress, lines 16-17: the list, as it comes from the package. *)
  Definition hh_decompress (st : E * D) (compressed : str) : res ((E * D) * list (str * str)) :=
    let* (d, headers) := decode (snd st) compressed in
    Ok ((fst st, d), headers).

  (** What lib/processors.py has after lines 130-150 of process_message: the
      answer is handed to compare_headers (line 149), and there to NormalizeDict,
      which asks it for [items()] (line 15); a list has no such attribute.  (With
      verbose above 3 the answer is given to format_http1 before, line 142, which
      asks it for [get]: again AttributeError.) *)
  Definition hh_checked (st : E * D) (compressed : str) : res ((E * D) * option hdict) :=
    let* _ := hh_decompress st compressed in
    Err AttributeError.

  (** The processors of the harness: this one by its name, besides any others. *)
  Variable St : Type.
  Variable construct : str -> bool -> list str -> res St.
  Variable p_compress : str -> St -> hdict -> str -> res (St * str).
  Variable p_decompress : str -> St -> str -> res (St * option hdict).

  Definition wh_construct (m : str) (q : bool) (ps : list str) : res (St + (E * D)) :=
    if str_eqb m (lit "hyper_hpack") then Ok (inr hh_new) else let* s := construct m q ps in Ok (inl s).
  Definition wh_compress (m : str) (st : St + (E * D)) (d : hdict) (host : str) : res ((St + (E * D)) * str) :=
    match st with
    | inl s => let* (s, c) := p_compress m s d host in Ok (inl s, c)
    | inr h => let* (h, c) := hh_compress h d in Ok (inr h, c)
    end.
  Definition wh_decompress (m : str) (st : St + (E * D)) (c : str) : res ((St + (E * D)) * option hdict) :=
    match st with
    | inl s => let* (s, d) := p_decompress m s c in Ok (inl s, d)
    | inr h => let* (h, d) := hh_checked h c in Ok (inr h, d)
    end.
End Hpack.
