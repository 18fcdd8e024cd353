(** * headerdiff: what the properties talk about. *)
From Coq Require Import String List NArith ZArith Bool Permutation.
From Verif Require Import PyBase PyStr HD_Model.
Import ListNotations.
Open Scope N_scope.

(** A message: is it a request, and its headers in order. *)
Definition msg := (bool * list hdr)%type.

(** One encoder encodes messages in turn; stops at the first exception. *)
Fixpoint enc_all (ord : nat -> list ih -> list ih) (cfg : hcfg) (e : henc) (ms : list msg) : henc * res (list str) :=
  match ms with
  | [] => (e, Ok [])
  | (q, hs) :: ms' =>
      match hd_encode ord cfg q e hs with
      | (e, Err x) => (e, Err x)
      | (e, Ok f) =>
          match enc_all ord cfg e ms' with
          | (e, Err x) => (e, Err x)
          | (e, Ok fs) => (e, Ok (f :: fs))
          end
      end
  end.

(** One decoder decodes frames in turn, going on after exceptions. *)
Fixpoint dec_all (cfg : hcfg) (d : hdec) (fs : list (bool * str)) : hdec * list (res (list hdr)) :=
  match fs with
  | [] => (d, [])
  | (q, f) :: fs' =>
      let '(d, r) := hd_decode cfg q d f in
      let '(d, rs) := dec_all cfg d fs' in
      (d, r :: rs)
  end.

(** The frames of a session together with what the receiver knows about them. *)
Definition wire (ms : list msg) (fs : list str) : list (bool * str) := combine (map fst ms) fs.

Definition all_headers (ms : list msg) : list hdr := flat_map snd ms.

(** No two different headers of the session have the same name+value text. *)
Definition distinct_texts (ms : list msg) : Prop :=
  forall a b, In a (all_headers ms) -> In b (all_headers ms) -> fst a ++ snd a = fst b ++ snd b -> a = b.

Definition same_text (a b : hdr) : Prop := fst a ++ snd a = fst b ++ snd b.

(** An iteration order visits every entry once. *)
Definition some_order (ord : nat -> list ih -> list ih) : Prop := forall t l, Permutation (ord t l) l.

(** Octets of the header values held. *)
Definition held (l : list hdr) : Z := fold_right (fun h n => (zlen (snd h) + n)%Z) 0%Z l.

(** Both ends hold the same headers under the same indices. *)
Definition agree_tables (e : henc) (d : hdec) : Prop :=
  Permutation (map (fun h => (i_index h, (i_name h, i_value h))) (he_tbl e))
    (combine (seq 0 (length (hd_tbl d))) (hd_tbl d)).

(** The codec without Huffman coding. *)
Definition plain_cfg (max : Z) (delta : bool) (t : dtype) : hcfg := mk_hcfg max delta t hd_write_plain hd_read_plain.
