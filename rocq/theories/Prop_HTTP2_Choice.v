(** * Property C96: what the http2 encoder sends. *)
From Coq Require Import String List NArith ZArith Bool Arith Lia.
From Verif Require Import PyBase HTTP2_Model HTTP2_Spec HTTP2_Choice.
Import ListNotations.
Open Scope N_scope.

(** In every session the frames are those of the description in HTTP2_Choice:
    first the indices of the headers that end, then the headers of the message
    other than the first occurrences of those that were on, by index if known
    and otherwise in full, then the ones that were on and were lost meanwhile,
    until all of them are known. *)
Theorem C96_frames : forall fuel max is_request ms c fs, encode_all fuel max (init_encoder is_request) ms = Ok (c, fs) ->
  exists w, conversation max (at_start is_request) ms fs w.
Proof.
  intros fuel max r ms c fs E. destruct (session_conversation _ _ _ _ _ _ _ (shown_start r) E) as (w & C & _). eauto.
Qed.
Print Assumptions C96_frames.

(** Once a header has been remembered the table keeps to the limit. *)
Theorem C96_remembered_fits : forall max h w w', remembered max h w w' -> w' <> [] -> (held w' <= max)%Z.
Proof.
  intros max h w w' (old & rest & _ & _ & [[L ->]|(_ & _ & ->)]) N; [|congruence].
  enough (held (rest ++ [(h, true)]) = held rest + room h)%Z by lia.
  clear. unfold held. induction rest as [|x r IH]; cbn [app fold_right fst]; lia.
Qed.
Print Assumptions C96_remembered_fits.

(** Four requests with a table of 110 octets: a known header by its index and,
    repeated, twice more; paths in full with and without a known name; a
    repeated header switched off and on; names by index; a header that is lost
    and sent again at the end of the message. *)
Definition choice_messages : list (list header) :=
  map (map (fun p => (lit (fst p), lit (snd p))))
  [[(":scheme", "http"); (":scheme", "http"); (":path", "/a"); ("x", "1")];
   [("x", "1"); (":path", "/a"); ("x", "1"); ("x", "2")];
   [("x", "2"); ("long", "0123456789012345678901234567890123456789"); ("y", "")];
   [("x", "2")]]%string.
Example C96_nontrivial : exists c fs, encode_all 5 110 (init_encoder true) choice_messages = Ok (c, fs) /\
  map (skipn 8) fs =
   [ [128; 128; 128; 100] ++ 2 :: lit "/a" ++ [64; 1] ++ lit "x" ++ 1 :: lit "1";
     [96; 5] ++ lit ":path" ++ 2 :: lit "/a" ++ [130; 130; 67; 1] ++ lit "2";
     [129; 64; 4] ++ lit "long" ++ 40 :: lit "0123456789012345678901234567890123456789" ++ [64; 1] ++ lit "y" ++ [0; 64; 1] ++ lit "x" ++ 1 :: lit "2";
     [128] ].
Proof. eexists. eexists. split; vm_compute; reflexivity. Qed.
