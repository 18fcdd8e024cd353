(** * Properties C01 - C07: the http2 codec. *)
From Coq Require Import String List NArith ZArith Bool Lia Permutation.
From Verif Require Import PyBase NBits HTTP2_Model HTTP2_Int HTTP2_Sim HTTP2_Inv HTTP2_Spec HTTP2_More.
Import ListNotations.
Open Scope N_scope.
Open Scope py_scope.

(** ** C01: integers survive the wire.

    [flag] is the byte the integer is written into: its low [p] bits are
    clear and there is room for them.  What is written is a first octet
    (none for the 0-bit prefix) and continuation octets; the reader is
    handed the first octet by the caller, as decode_headers does. *)
Theorem C01_http2_integer_roundtrip : forall p flag v : N,
  p <= 8 -> flag + N.ones p < 256 -> flag mod 2 ^ p = 0 ->
  exists bs, write_integer flag p v = Ok bs /\ is_bytes bs /\
    forall rest, (if p =? 0 then read_integer 0 0 (bs ++ rest)
                  else match bs ++ rest with
                       | [] => Err IndexError
                       | b :: r => read_integer b p r
                       end) = Ok (v, rest).
Proof.
  intros p flag v Hp Hf Hm. destruct (write_read_integer p flag v Hp Hf Hm) as (bs & E & Hb & _ & _ & R).
  exists bs. split; [exact E|]. split; [exact Hb|]. intros rest. specialize (R rest). unfold read_int_at in R.
  destruct (p =? 0); [exact R|]. destruct (bs ++ rest); exact R.
Qed.
Print Assumptions C01_http2_integer_roundtrip.

(** 1337 in the 5-bit prefix of flag 96 (a value needing two continuation octets). *)
Example C01_example : write_integer 96 5 1337 = Ok [127; 154; 10] /\
  read_integer 127 5 [154; 10; 42] = Ok (1337, [42]).
Proof. vm_compute. auto. Qed.

(** The prefix of 14 bits, which the class offers but no message uses: values
    below 16383 are two octets and survive; larger ones cannot be written. *)
Theorem C01_http2_14_bits : forall flag v rest, flag < 256 -> flag mod 64 = 0 -> v < 16383 ->
  exists b0 b1, write_integer flag 14 v = Ok [b0; b1] /\ b0 < 256 /\ b1 < 256 /\ b0 / 64 = flag / 64 /\
    read_integer b0 14 (b1 :: rest) = Ok (v, rest).
Proof.
  intros byte v rest Hb Hz Hv. unfold write_integer. cbn [MAX_VALUES bind].
  destruct (N.ltb_spec v 16383); [|lia]. change (14 <=? 8) with false. cbv iota zeta.
  rewrite shiftr8, land255. replace (N.lor byte (v / 256)) with (byte + v / 256).
  2:{ replace byte with (byte / 64 * 2 ^ 6) by (change (2 ^ 6) with 64; lia). rewrite <- N.shiftl_mul_pow2, lor_shift_low by (change (2 ^ 6) with 64; lia).
      now rewrite N.shiftl_mul_pow2. }
  rewrite lor_shift_low by (change (2 ^ 8) with 256; lia). change (2 ^ 8) with 256.
  assert (Hk : byte + v / 256 < 256) by lia. unfold pack_H.
  destruct (N.ltb_spec ((byte + v / 256) * 256 + v mod 256) 65536); [|lia].
  rewrite shiftr8, land255. exists (byte + v / 256), (v mod 256).
  replace (((byte + v / 256) * 256 + v mod 256) / 256) with (byte + v / 256) by lia.
  replace (((byte + v / 256) * 256 + v mod 256) mod 256) with (v mod 256) by lia.
  split; [reflexivity|]. split; [lia|]. split; [lia|]. split; [lia|].
  unfold read_integer. cbn [MAX_VALUES bind read_next_byte]. change (14 <=? 8) with false.
  change (14 - 8) with 6. cbv iota. cbn [MAX_VALUES bind read_next_byte].
  rewrite (land_ones_mod _ 6) by reflexivity. change (2 ^ 6) with 64.
  rewrite lor_shift_low by (change (2 ^ 8) with 256; lia). change (2 ^ 8) with 256.
  replace (((byte + v / 256) mod 64) * 256 + v mod 256) with v by lia.
  destruct (N.eqb_spec v 16383); [lia|]. reflexivity.
Qed.
Print Assumptions C01_http2_14_bits.
Theorem C01_http2_14_bits_large : forall flag v, 16383 <= v -> write_integer flag 14 v = Err StructError.
Proof.
  intros byte v Hv. unfold write_integer. cbn [MAX_VALUES bind].
  destruct (N.ltb_spec v 16383); [lia|]. change (0 <? 14) with true. cbv iota. unfold pack_B.
  destruct (N.ltb_spec (byte + 16383) 256); [lia|reflexivity].
Qed.
Print Assumptions C01_http2_14_bits_large.
Example C01_14_bits_example : write_integer 128 14 1337 = Ok [133; 57] /\ read_integer 133 14 [57; 42] = Ok (1337, [42]).
Proof. vm_compute. auto. Qed.

(** ** C02: a session of duplicate-free header lists. *)
Theorem C02_http2_session_roundtrip : forall is_request max fuel msgs c' frames,
  Forall (fun m => NoDup m) msgs ->
  encode_all fuel max (init_encoder is_request) msgs = Ok (c', frames) ->
  exists d' outs, decode_all max (init_decoder is_request) frames = (d', Ok outs) /\
    Forall2 (fun out m => Permutation out m) outs msgs.
Proof.
  intros r max fuel msgs c' frames HN E.
  destruct (session_sim _ _ _ _ _ _ _ (init_rel r) (init_good r) E) as (d' & outs & D & _ & _ & HF).
  exists d', outs. split; [exact D|]. clear -HN HF. induction HF as [|o m outs msgs [_ H] _ IH]; constructor.
  - apply H. now inversion HN.
  - apply IH. now inversion HN.
Qed.

(** ** C03: both ends hold the same table. *)
Theorem C03_http2_tables_agree : forall is_request max fuel msgs c' frames,
  encode_all fuel max (init_encoder is_request) msgs = Ok (c', frames) ->
  exists d' outs, decode_all max (init_decoder is_request) frames = (d', Ok outs) /\
    same_tables c' d'.
Proof.
  intros r max fuel msgs c' frames E.
  destruct (session_sim _ _ _ _ _ _ _ (init_rel r) (init_good r) E) as (d' & outs & D & HR & _).
  exists d', outs. split; [exact D|]. now apply Rel_same.
Qed.
Print Assumptions C02_http2_session_roundtrip.
Print Assumptions C03_http2_tables_agree.

(** A session with a reference set, a removal, an eviction of a referenced
    entry during the message and its re-emission (buffer of 120 octets, so
    most of the default table is evicted). *)
Definition demo_msgs : list (list header) :=
  [ [(lit ":method", lit "get"); (lit "a", lit "1"); (lit "b", lit "2")];
    [(lit "a", lit "1"); (lit "b", lit "2"); (lit "c", lit "0123456789012345678901234567890123456789")];
    [(lit "b", lit "2"); (lit ":path", lit "/x")] ].

Example C02_example :
  Forall (fun m => NoDup m) demo_msgs /\
  exists c frames d outs, encode_all 10 140 (init_encoder true) demo_msgs = Ok (c, frames) /\
    decode_all 140 (init_decoder true) frames = (d, Ok outs) /\
    same_tables c d /\ length (c_tbl c) = 2%nat /\
    nth 1 outs [] = [(lit "c", lit "0123456789012345678901234567890123456789"); (lit "a", lit "1"); (lit "b", lit "2")].
Proof.
  split. { repeat constructor; simpl; intuition discriminate. }
  do 4 eexists. split; [vm_compute; reflexivity|]. split; [vm_compute; reflexivity|].
  split; [|split; vm_compute; reflexivity]. split; [|reflexivity]. repeat constructor.
Qed.

(** ** C04: termination.

    Refuted: with the default buffer of 4096 octets, after one request for
    '/', a second request for '/' carrying a 3900-octet header makes the
    encoder loop for ever: no amount of fuel is enough. *)
Definition loop_msg1 : list header := [(lit ":path", lit "/")].
Definition loop_msg2 : list header := [(lit ":path", lit "/"); (lit "x", repeat 97 (N.to_nat 3900))].

Theorem C04_http2_encoder_termination_refuted :
  exists c frame, encode_headers 1 4096 loop_msg1 (init_encoder true) = Ok (c, frame) /\
    forall fuel, encode_headers fuel 4096 loop_msg2 c = Err Diverge.
Proof.
  do 2 eexists. split; [vm_compute; reflexivity|].
  match goal with |- forall fuel, encode_headers fuel _ _ ?c = _ =>
    destruct (prefix_run 4096 loop_msg2 c) as [[[c1 kept] b12]|] eqn:E end; [|exfalso; revert E; vm_compute; discriminate].
  refine (encode_diverges 4096 loop_msg2 _ c1 kept b12 (lit ":path", lit "/") E _ _ _).
  - reflexivity.
  - revert E. vm_compute. intros E. injection E as <- <- <-. left. reflexivity.
  - revert E. vm_compute. intros E. injection E as <- <- <-. reflexivity.
Qed.
Print Assumptions C04_http2_encoder_termination_refuted.

(** Conditional version: if the default table fits the buffer and no two
    consecutive messages repeat a ':path' header, encoding a session never
    loops; the number of rounds needed for a message is at most one more
    than the number of its headers. *)
Theorem C04_http2_encoder_terminates : forall is_request max fuel msgs,
  (octets_of_headers (default_headers is_request) <= max)%Z ->
  (forall m, In m msgs -> (length m < fuel)%nat) ->
  no_repeated_path [] msgs ->
  encode_all fuel max (init_encoder is_request) msgs <> Err Diverge.
Proof.
  intros r max fuel msgs Hm Hf Hp.
  apply (session_terminates_gen fuel max msgs [] (init_encoder r) (init_decoder r)); auto.
  - apply init_rel.
  - apply init_good.
  - rewrite octets_headers_sum in Hm. exact Hm.
  - intros h (e & He & _ & Hr). unfold init_encoder in He. cbn [c_tbl] in He.
    apply in_map_iff in He as (x & <- & _). discriminate.
Qed.
Print Assumptions C04_http2_encoder_terminates.

Example C04_example : (octets_of_headers (default_headers true) <= 4096)%Z /\
  (octets_of_headers (default_headers false) <= 4096)%Z /\
  no_repeated_path [] demo_msgs /\ (forall m, In m demo_msgs -> (length m < 4)%nat).
Proof.
  split; [vm_compute; discriminate|]. split; [vm_compute; discriminate|].
  split.
  - cbn. repeat split; intuition (subst; discriminate).
  - cbn. intros m [<-|[<-|[<-|[]]]]; cbn; lia.
Qed.

(** ** C05: hostile input.

    [feed] runs the decoder over arbitrary strings, carrying on after
    exceptions with whatever state the exception left behind. *)
Theorem C05_http2_decoder_memory_bound : forall is_request max inputs,
  (octets_of_headers (default_headers is_request) <= max)%Z ->
  let d := feed max (init_decoder is_request) inputs in
  d_size d = octets (d_tbl d) /\ (d_size d <= max)%Z.
Proof.
  intros r max inputs Hm d.
  assert (H0 : (0 <= max)%Z). { apply Z.le_trans with (2 := Hm). destruct r; vm_compute; discriminate. }
  assert (HA : acct max (init_decoder r)).
  { split.
    - destruct (init_good r) as [_ H]. exact H.
    - rewrite octets_headers_sum in Hm. exact Hm. }
  destruct (feed_acct max max (Z.le_refl _) H0 inputs _ HA) as [E1 E2].
  split; [|exact E2]. rewrite octets_sum. exact E1.
Qed.
Print Assumptions C05_http2_decoder_memory_bound.

(** Inputs that add, substitute (with eviction) and raise. *)
Example C05_example :
  let add := repeat 0 8 ++ [64; 1; 97; 1; 98] in
  let subst := repeat 0 8 ++ [0; 1; 99; 0; 3; 120; 121; 122; 64; 5; 1] in
  snd (decode_headers 1300 (init_decoder true) subst) = Err IndexError /\
  let d := feed 1300 (init_decoder true) [add; subst; add; [1]; add] in
  d_size d = 1277%Z /\ length (d_tbl d) = 31%nat.
Proof. vm_compute. auto. Qed.

(** ** C06: repeated headers.

    Refuted: the second of two identical messages, in which a header occurs
    twice, loses one occurrence. *)
Theorem C06_http2_repeated_headers_refuted :
  exists msgs c frames d outs,
    encode_all 10 4096 (init_encoder true) msgs = Ok (c, frames) /\
    decode_all 4096 (init_decoder true) frames = (d, Ok outs) /\
    ~ Forall2 (fun out m => Permutation out m) outs msgs.
Proof.
  exists [[(lit ":path", lit "/p"); (lit ":path", lit "/p"); (lit "a", lit "1")];
          [(lit "a", lit "1"); (lit "a", lit "1"); (lit "a", lit "1")]].
  do 4 eexists. split; [vm_compute; reflexivity|]. split; [vm_compute; reflexivity|].
  intros H. inversion H as [|? ? ? ? _ H2]; subst. inversion H2 as [|? ? ? ? H3 _]; subst.
  apply Permutation_length in H3. discriminate.
Qed.
Print Assumptions C06_http2_repeated_headers_refuted.

(** What survives for arbitrary lists: the set of distinct headers. *)
Theorem C06_http2_header_sets_preserved : forall is_request max fuel msgs c' frames,
  encode_all fuel max (init_encoder is_request) msgs = Ok (c', frames) ->
  exists d' outs, decode_all max (init_decoder is_request) frames = (d', Ok outs) /\
    Forall2 (fun out m => forall h, In h out <-> In h m) outs msgs.
Proof.
  intros r max fuel msgs c' frames E.
  destruct (session_sim _ _ _ _ _ _ _ (init_rel r) (init_good r) E) as (d' & outs & D & _ & _ & HF).
  exists d', outs. split; [exact D|]. clear -HF. induction HF as [|o m outs msgs [H _] _ IH]; constructor; auto.
Qed.
Print Assumptions C06_http2_header_sets_preserved.

(** ** C07: framing. *)
Theorem C07_http2_frame_wellformed : forall fuel max hs c c' frame,
  Forall byte_header hs ->
  encode_headers fuel max hs c = Ok (c', frame) ->
  exists hi lo body, frame = [hi; lo; 0; 0; 0; 0; 0; 0] ++ body /\
    is_bytes frame /\ hi * 256 + lo = lenN body.
Proof. exact encode_frame. Qed.
Print Assumptions C07_http2_frame_wellformed.

(** When the encoder raises, it is because the body of the frame - octets
    that a peer in the same state would have decoded to the message, behind
    any 8-octet frame header - has 65536 octets or more. *)
Theorem C07_http2_raises_only_when_too_large : forall is_request max fuel msgs c frames hs e,
  encode_all fuel max (init_encoder is_request) msgs = Ok (c, frames) ->
  encode_headers fuel max hs c = Err e -> e <> Diverge ->
  e = StructError /\
  exists d outs body, decode_all max (init_decoder is_request) frames = (d, Ok outs) /\
    65536 <= lenN body /\
    forall hdr8, length hdr8 = 8%nat -> exists d' out,
      decode_headers max d (hdr8 ++ body) = (d', Ok out) /\ forall h, In h out <-> In h hs.
Proof.
  intros r max fuel msgs c frames hs e E E1 Hne.
  assert (e = StructError) as -> by (destruct (encode_bytes_only_errors _ _ _ _ _ E1); congruence).
  split; [reflexivity|].
  destruct (session_sim _ _ _ _ _ _ _ (init_rel r) (init_good r) E) as (d & outs & D & HR & HG & _).
  destruct (encode_too_large _ _ _ _ E1) as (c' & body & Eb & Hl).
  exists d, outs, body. split; [exact D|]. split; [exact Hl|]. intros hdr8 H8.
  destruct (body_sim _ _ _ _ _ _ _ _ H8 HR HG Eb) as (d' & out & D' & _ & _ & Hs & _).
  exists d', out. auto.
Qed.
Print Assumptions C07_http2_raises_only_when_too_large.

(** A 300-octet value fits a frame, one of 65600 octets does not. *)
Example C07_example :
  (exists c f, encode_headers 1 4096 [(lit "v", repeat 97 300)] (init_encoder true) = Ok (c, f) /\
     firstn 4 f = [1; 49; 0; 0]) /\
  encode_headers 1 4096 [(lit "v", repeat 97 (N.to_nat 65600))] (init_encoder true) = Err StructError.
Proof.
  split.
  - do 2 eexists. split; vm_compute; reflexivity.
  - vm_compute. reflexivity.
Qed.
