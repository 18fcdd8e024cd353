(** * What the properties of the harness say. *)
From Coq Require Import String List NArith ZArith Bool.
From Verif Require Import PyBase PyStr Lib_Model.
Import ListNotations.
Open Scope N_scope.

(** ** Pieces of a header value *)

(** [x] is one of the parts of [s] between separators [c]. *)
Definition piece_of (c : N) (s x : str) : Prop :=
  ~ In c x /\
  exists pre post, s = pre ++ x ++ post /\
    (pre = [] \/ exists pre', pre = pre' ++ [c]) /\
    (post = [] \/ exists post', post = c :: post').

(** White space: blank, tab, newline, vertical tab, form feed, carriage return. *)
Definition white (c : N) : Prop := c = 32 \/ 9 <= c <= 13.

(** [y] is [x] without the blanks around it. *)
Definition trimmed (x y : str) : Prop :=
  exists l r, x = l ++ y ++ r /\ Forall (fun c => c = 32) l /\ Forall (fun c => c = 32) r /\
    hd 0 y <> 32 /\ last y 0 <> 32.

(** The header dictionary [d] carries the piece [y] for the name [k]. *)
Definition carries (d : hdict) (k y : str) : Prop :=
  exists v x, In (k, v) d /\
    piece_of (if str_eqb k (lit "cookie") then 59 else 0) v x /\ trimmed x y.

Definition ignored_name (k : str) : Prop :=
  k = lit ":version" \/ k = lit ":status-text" \/ k = lit "connection".

(** Same content up to order, repetitions and blanks, as the harness means it. *)
Definition same_content (a b : hdict) : Prop :=
  forall k y, ~ ignored_name k -> (carries a k y <-> carries b k y).

(** ** Filtering *)

(** [l] is a subsequence of [l']. *)
Inductive subseq {A} : list A -> list A -> Prop :=
| sub_nil : subseq [] []
| sub_skip x l l' : subseq l l' -> subseq l (x :: l')
| sub_keep x l l' : subseq l l' -> subseq (x :: l) (x :: l').

Definition hop_by_hop (d : hdict) (k : str) : Prop :=
  In k [lit ":status-text"; lit ":version"; lit "keep-alive"; lit "connection"] \/
  exists c x, In (lit "connection", c) d /\ piece_of 44 c x /\ trimmed x k.

(** ** HAR *)

Definition har_name (n : str) : str :=
  if str_eqb (lower n) (lit "host") then lit ":host" else lower n.

Definition values_of (k : str) (hs : list (str * str)) : list str :=
  map snd (filter (fun h => str_eqb (har_name (fst h)) k) hs).

(** ** Sessions: one processor on its own *)
Section Solo.
  Variable St : Type.
  Variable p_compress : str -> St -> hdict -> str -> res (St * str).
  Variable p_decompress : str -> St -> str -> res (St * option hdict).

  (** A processor object run on its own over the filtered messages: for every
      message the size of the compressed form and whether what comes back has
      different content. *)
  Inductive solo_run (m : str) : St -> list (hdict * str) -> list (N * bool) -> Prop :=
  | solo_nil st : solo_run m st [] []
  | solo_nodec st st1 st2 hdrs host c msgs rs :
      p_compress m st (filter_headers hdrs) host = Ok (st1, c) ->
      p_decompress m st1 c = Ok (st2, None) ->
      solo_run m st2 msgs rs ->
      solo_run m st ((hdrs, host) :: msgs) ((lenN c, false) :: rs)
  | solo_dec st st1 st2 hdrs host c d msgs bad rs :
      p_compress m st (filter_headers hdrs) host = Ok (st1, c) ->
      p_decompress m st1 c = Ok (st2, Some d) ->
      (bad = false <-> same_content (filter_headers hdrs) d) ->
      solo_run m st2 msgs rs ->
      solo_run m st ((hdrs, host) :: msgs) ((lenN c, bad) :: rs).
End Solo.

Definition list_at {A} (d : dict (list A)) (k : str) : list A :=
  match dget d k with Some l => l | None => [] end.
