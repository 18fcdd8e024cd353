(** * What the simple codec must preserve, and for which headers. *)
From Coq Require Import String List NArith ZArith Bool Permutation.
From Verif Require Import PyBase PyStr Lib_Model Lib_Spec H1_Spec.
Import ListNotations.
Open Scope N_scope.

(** An ordinary header name: not empty, lower case, no white space, comma,
    colon or NUL, and not "h". *)
Definition simple_name (k : str) : Prop :=
  k <> [] /\ k <> lit "h" /\
  forall c, In c k -> ~ white c /\ ~ (65 <= c <= 90) /\ c <> 44 /\ c <> 58 /\ c <> 0.

(** A name starting with a colon (and not one of the special ones): the rest
    has no colon, no newline and no upper case. *)
Definition colon_name (k : str) : Prop := hd 0 k = 58 /\ header_name k.

Definition simple_headers (special : list str) (d : hdict) : Prop :=
  forall k v, In (k, v) d -> ~ In k special ->
    (simple_name k \/ colon_name k) /\ forall x, piece_of 0 v x -> one_line x.

Definition simple_request (d : hdict) : Prop :=
  NoDup (map fst d) /\
  (exists m, In (lit ":method", m) d /\ one_word m) /\
  (exists p, In (lit ":path", p) d /\ one_word p) /\
  simple_headers [lit ":method"; lit ":path"; lit ":version"; lit ":status-text"] d.

Definition simple_response (d : hdict) : Prop :=
  NoDup (map fst d) /\
  ~ In (lit ":method") (map fst d) /\ ~ In (lit ":host") (map fst d) /\
  (exists s, In (lit ":status", s) d /\ one_word s) /\
  simple_headers [lit ":version"; lit ":status"; lit ":status-text"] d.

Definition simple_message (is_request : bool) (d : hdict) : Prop :=
  if is_request then simple_request d else simple_response d.

(** Every name and value is seven-bit. *)
Definition ascii_headers (d : hdict) : Prop :=
  forall k v, In (k, v) d -> (forall c, In c k -> c < 128) /\ (forall c, In c v -> c < 128).

(** What arrives: the same headers, save :version and :status-text. *)
Definition arrives (d d' : hdict) : Prop :=
  NoDup (map fst d') /\
  forall k v, k <> lit ":version" -> k <> lit ":status-text" -> (In (k, v) d' <-> In (k, v) d).

(** Any iteration order. *)
Definition any_order (ord : nat -> hdict -> hdict) : Prop := forall i d, Permutation d (ord i d).
