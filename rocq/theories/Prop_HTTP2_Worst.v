(** * Property C103: how large an http2 frame can get. *)
From Coq Require Import String List NArith ZArith Bool Arith Lia.
From Verif Require Import PyBase HTTP2_Model HTTP2_Spec HTTP2_Choice HTTP2_Worst Prop_HTTP2_Choice.
Import ListNotations.
Open Scope N_scope.

(** In a session with a table of up to 8160 octets (the default is 4096) a frame has
    no more than eight octets, the headers of the message in full, and two octets for
    every different header of the message before that has ended.  [string_cost],
    [header_cost], [total] and [dropped] are at the top of HTTP2_Worst.v. *)
Theorem C103_frame_size : forall fuel max is_request ms c fs, (0 <= max <= 8160)%Z ->
  Forall (Forall (fun h => fst h <> [])) ms ->
  encode_all fuel max (init_encoder is_request) ms = Ok (c, fs) ->
  Forall2 (fun p f => lenN f <= 8 + total (snd p) + 2 * dropped (fst p) (snd p)) (combine ([] :: ms) ms) fs.
Proof.
  intros fuel max r ms c fs Hm Hn E. destruct (session_conversation _ _ _ _ _ _ _ (shown_start r) E) as (w & C & _).
  eapply conversation_fine; [exact Hm|exact C|exact Hn|apply start_fine].
Qed.
Print Assumptions C103_frame_size.

(** A header that the peers lose while a message is being sent is sent again at most
    once: the repetitions are different headers of the message that were on before. *)
Theorem C103_sent_again_once : forall max kept w its w', (0 <= max <= 8160)%Z -> NoDup kept -> Forall (fun h => fst h <> []) kept ->
  (length w <= 255)%nat -> NoDup (map fst w) ->
  settled max kept w its w' ->
  exists again, NoDup again /\ incl again kept /\ length its = length again.
Proof.
  intros max kept w its w' Hm Nk Hn Hl Hd S. destruct (settled_room max Hm _ _ _ _ Nk S) as [->|Hk]; [exists []; repeat split; [constructor|intros ? []]|].
  destruct (settled_once max Hm kept (fun _ => True) Hk ltac:(apply Forall_forall; rewrite Forall_forall in Hn; auto) _ _ _ S [] ltac:(constructor) ltac:(intros ? []) ltac:(exists (map fst w); now rewrite app_nil_r)) as (R & N1 & I1 & [_ C] & _); [now split|].
  exists R. auto.
Qed.
Print Assumptions C103_sent_again_once.

(** The bound is met by headers that are new, and nearly so when a header is lost and
    sent again. *)
Example C103_example : exists c fs, encode_all 5 110 (init_encoder true) choice_messages = Ok (c, fs) /\
  map (@lenN N) fs = [20; 23; 65; 9] /\
  map (fun p => 8 + total (snd p) + 2 * dropped (fst p) (snd p)) (combine ([] :: choice_messages) choice_messages) = [51; 35; 68; 17] /\
  Forall (Forall (fun h : header => fst h <> [])) choice_messages.
Proof. do 2 eexists. split; [vm_compute; reflexivity|]. split; [vm_compute; reflexivity|]. split; [vm_compute; reflexivity|]. repeat constructor; discriminate. Qed.

Example C103_met : exists c fs, encode_all 1 4096 (init_encoder true) [[(lit "x", lit "1"); (lit "yy", lit "")]] = Ok (c, fs) /\
  map (@lenN N) fs = [8 + total [(lit "x", lit "1"); (lit "yy", lit "")]].
Proof. do 2 eexists. split; vm_compute; reflexivity. Qed.
