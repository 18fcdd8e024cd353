(** * What is well-formed for HTTP/1 text. *)
From Coq Require Import String List NArith ZArith Bool.
From Verif Require Import PyBase PyStr Lib_Model Lib_Spec.
Import ListNotations.
Open Scope N_scope.

(** Non-empty, without white space. *)
Definition one_word (s : str) : Prop := s <> [] /\ forall c, In c s -> ~ white c.

(** On one line, not surrounded by white space (possibly empty). *)
Definition one_line (s : str) : Prop := ~ In 10 s /\ (s = [] \/ ~ white (hd 0 s) /\ ~ white (last s 0)).

(** Non-empty, lower case, on one line, no colon except as first character. *)
Definition header_name (k : str) : Prop :=
  k <> [] /\ (forall c, In c k -> ~ (65 <= c <= 90)) /\ ~ In 10 k /\ ~ In 58 (tl k).

(** Ordinary headers: a proper name, and NUL-separated values each on one line. *)
Definition ordinary_headers (special : list str) (d : hdict) : Prop :=
  forall k v, In (k, v) d -> ~ In k special ->
    header_name k /\ forall x, piece_of 0 v x -> one_line x.

(** A dictionary that is an HTTP/1 request: [host] is the name under which
    :host is written. *)
Definition wf_request (host : str) (d : hdict) : Prop :=
  NoDup (map fst d) /\
  (exists m, In (lit ":method", m) d /\ one_word m) /\
  (exists p, In (lit ":path", p) d /\ one_word p) /\
  (forall v, In (lit ":version", v) d -> v <> [] /\ one_line v) /\
  ~ In host (map fst d) /\
  ordinary_headers [lit ":method"; lit ":path"; lit ":version"] d.

Definition wf_response (host : str) (d : hdict) : Prop :=
  NoDup (map fst d) /\
  ~ In (lit ":method") (map fst d) /\
  (exists s, In (lit ":status", s) d /\ one_word s) /\
  (forall v, In (lit ":version", v) d -> one_word v) /\
  (forall t, In (lit ":status-text", t) d -> t <> [] /\ one_line t) /\
  ~ In host (map fst d) /\ ~ In (lit ":host") (map fst d) /\
  ordinary_headers [lit ":version"; lit ":status"; lit ":status-text"] d.
