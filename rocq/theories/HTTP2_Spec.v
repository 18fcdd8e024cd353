(** * http2 codec: what the properties say, in terms of sessions.

    A session is a list of header lists encoded one after the other by one
    encoder; the frames are decoded in order by one decoder. *)
From Coq Require Import String List NArith ZArith.
From Verif Require Import PyBase HTTP2_Model.
Import ListNotations.
Open Scope py_scope.

(** The frames produced for a sequence of messages. *)
Fixpoint encode_all (fuel : nat) (max : Z) (c : encoder) (msgs : list (list header))
  : res (encoder * list str) :=
  match msgs with
  | [] => Ok (c, [])
  | m :: msgs' =>
      let* (c, f) := encode_headers fuel max m c in
      let* (c, fs) := encode_all fuel max c msgs' in
      Ok (c, f :: fs)
  end.

(** What a receiver gets; stops at the first exception. *)
Fixpoint decode_all (max : Z) (d : decoder) (frames : list str) : decoder * res (list (list header)) :=
  match frames with
  | [] => (d, Ok [])
  | f :: fs =>
      match decode_headers max d f with
      | (d, Err e) => (d, Err e)
      | (d, Ok m) =>
          match decode_all max d fs with
          | (d, Err e) => (d, Err e)
          | (d, Ok ms) => (d, Ok (m :: ms))
          end
      end
  end.

(** A receiver that is fed arbitrary byte strings and carries on after
    exceptions. *)
Definition feed (max : Z) (d : decoder) (frames : list str) : decoder :=
  fold_left (fun d f => fst (decode_headers max d f)) frames d.

(** The sender's and the receiver's tables list the same headers with the
    same reference marks, and account for the same size. *)
Definition same_tables (c : encoder) (d : decoder) : Prop :=
  Forall2 (fun a b => e_hdr a = e_hdr b /\ e_ref a = e_ref b) (c_tbl c) (d_tbl d) /\
  c_size c = d_size d.

(** Octets held in a table: every entry counts its name, its value and 32. *)
Definition octets (t : list entry) : Z :=
  fold_right Z.add 0%Z
    (map (fun e => Z.of_nat (length (fst (e_hdr e)) + length (snd (e_hdr e)) + 32)) t).

Definition octets_of_headers (hs : list header) : Z :=
  fold_right Z.add 0%Z (map (fun h => Z.of_nat (length (fst h) + length (snd h) + 32)) hs).

Definition byte_header (h : header) : Prop := is_bytes (fst h) /\ is_bytes (snd h).

(** Two consecutive messages of a history never repeat a ':path' header. *)
Fixpoint no_repeated_path (prev : list header) (msgs : list (list header)) : Prop :=
  match msgs with
  | [] => True
  | m :: msgs' =>
      (forall h, In h m -> In h prev -> fst h <> lit ":path") /\ no_repeated_path m msgs'
  end.
