(** * Properties C74-C76: the headerdiff decoder on octets no encoder made,
      on beginnings of frames, and over its limit. *)
From Coq Require Import String List NArith ZArith Bool Lia Permutation.
From Verif Require Import PyBase PyStr HD_Model HD_Spec HD_Sim HD_Session HDHuff_Model HDHuff_Bits Prop_HDHuff HD_Hostile.
Import ListNotations.
Open Scope N_scope.
Open Scope py_scope.

(** Either without Huffman coding, or with the tables of the code. *)
Inductive headerdiff : hcfg -> Prop :=
| hd_plain max delta t : headerdiff (plain_cfg max delta t)
| hd_huffman c max delta t : table_of c -> headerdiff (huff_cfg c max delta t).

Lemma table_node c : table_of c -> is_node (k_root c).
Proof.
  intros (stats & E & P). destruct (table_facts _ P) as [H2 _].
  destruct (new_codec_ok stats H2) as (c' & E' & _ & Nd & _). congruence.
Qed.

Lemma headerdiff_reader cfg : headerdiff cfg -> exists short, cut_reader cfg short.
Proof.
  intros [max delta t|c max delta t Hc].
  - exists True. now apply plain_cut.
  - exists False. apply (huff_cut _ c); [now apply table_node|reflexivity].
Qed.

Lemma headerdiff_strings cfg : headerdiff cfg -> strings_ok cfg.
Proof.
  intros [max delta t|c max delta t Hc]; [apply plain_strings_ok|now apply C13_huffman_strings_ok].
Qed.

(** ** C74: any octets, any state. *)

(** Either as many headers as the ninth octet says, or an IndexError, or the
    general exception, and that only when the table is over its limit. *)
Theorem C74_outcomes : forall cfg q d octets,
  headerdiff cfg ->
  let '(d', r) := hd_decode cfg q d octets in
  match r with
  | Ok hs => exists n, nth_error octets 8 = Some n /\ length hs = N.to_nat n
  | Err IndexError => True
  | Err GenericException => (h_max cfg < hd_size d')%Z
  | Err _ => False
  end.
Proof.
  intros cfg q d octets H. destruct (headerdiff_reader _ H) as [short HC].
  unfold hd_decode, hd_decode_payload.
  assert (H8 : forall x s, hd_byte (skipn 8 octets) = Ok (x, s) -> nth_error octets 8 = Some x).
  { intros x s E. do 8 (destruct octets as [|? octets]; [discriminate|]). cbn [skipn nth_error] in *.
    destruct octets as [|y octets]; cbn in *; congruence. }
  destruct (hd_byte (skipn 8 octets)) as [[n s]|e] eqn:E.
  - pose proof (list_outcome cfg short q (N.to_nat n) HC d s (fst (decode_list cfg q (N.to_nat n) d s))) as K.
    destruct (decode_list cfg q (N.to_nat n) d s) as [d1 [[hs s1]|x]]; cbn [fst snd] in *.
    + exists n. split; [now apply (H8 n s)|exact K].
    + destruct K as [->|[-> K]]; [exact I|now apply K].
  - destruct (skipn 8 octets); cbn in E; [|discriminate]. assert (e = IndexError) as -> by congruence. exact I.
Qed.
Print Assumptions C74_outcomes.

Example C74_example :
  let cfg := plain_cfg 6 true DFull in
  snd (hd_decode cfg true hdec_new (repeat 255 8)) = Err IndexError /\
  snd (hd_decode cfg true hdec_new (repeat 255 8 ++ [0; 77])) = Ok [] /\
  snd (hd_decode cfg true hdec_new (repeat 0 8 ++ [2; 255; 255])) = Err IndexError /\
  snd (hd_decode cfg true hdec_new (repeat 0 8 ++ [1; 33; 7; 97; 97; 97; 97; 97; 97; 97])) = Ok [(lit "accept", lit "aaaaaaa")] /\
  snd (hd_decode cfg true hdec_new (repeat 0 8 ++ [2; 33; 7; 97; 97; 97; 97; 97; 97; 97; 1])) = Err GenericException.
Proof. vm_compute. repeat split. Qed.

(** ** C75: a frame whose end is missing. *)

(** Whole frame [beginning ++ missing], made by an encoder in a session and
    given to a decoder that has seen the same session.  With Huffman coding a
    proper beginning always raises IndexError; without it, it may also be
    accepted with the last value shortened by exactly the missing octets. *)
Theorem C75_cut : forall ord cfg ms e fs q hs e' beginning missing,
  some_order ord -> headerdiff cfg -> (0 <= h_max cfg)%Z ->
  enc_all ord cfg henc_new ms = (e, Ok fs) ->
  hd_encode ord cfg q e hs = (e', Ok (beginning ++ missing)) -> missing <> [] ->
  let d := fst (dec_all cfg hdec_new (wire ms fs)) in
  exists out, snd (hd_decode cfg q d (beginning ++ missing)) = Ok out /\
    (snd (hd_decode cfg q d beginning) = Err IndexError \/
     h_read cfg = hd_read_plain /\
     exists before name value, out = before ++ [(name, value)] /\ (length missing <= length value)%nat /\
       snd (hd_decode cfg q d beginning) = Ok (before ++ [(name, firstn (length value - length missing) value)])).
Proof.
  intros ord cfg ms e fs q hs e' a b Ho H Hm E F Hb d.
  destruct (session_ok ord Ho cfg (headerdiff_strings _ H) ms _ _ _ _ (hsim_new cfg Hm) E) as (d' & rs & D & S & _).
  unfold d. rewrite D. cbn [fst].
  assert (K : cut_reader cfg (h_read cfg = hd_read_plain)).
  { destruct H as [max delta t|c max delta t Hc].
    - destruct (plain_cut (plain_cfg max delta t) eq_refl) as [K1 K2]. split; [|exact K2].
      intros x y. destruct (K1 x y) as [|(v & s & Es & L & K)]; [now left|right]. exists v, s. repeat split; auto.
      destruct K as [K|[K|(_ & K)]]; auto.
    - destruct (huff_cut (huff_cfg c max delta t) c (table_node c Hc) eq_refl) as [K1 K2]. split; [|exact K2].
      intros x y. destruct (K1 x y) as [|(v & s & Es & L & K)]; [now left|right]. exists v, s. repeat split; auto.
      destruct K as [K|[K|([] & _)]]; auto. }
  exact (msg_cut ord cfg _ q hs _ _ _ _ a b Ho (headerdiff_strings _ H) K S F eq_refl Hb).
Qed.
Print Assumptions C75_cut.

Corollary C75_huffman_cut_detected : forall ord c max delta t ms e fs q hs e' beginning missing,
  some_order ord -> table_of c -> (0 <= max)%Z ->
  enc_all ord (huff_cfg c max delta t) henc_new ms = (e, Ok fs) ->
  hd_encode ord (huff_cfg c max delta t) q e hs = (e', Ok (beginning ++ missing)) -> missing <> [] ->
  snd (hd_decode (huff_cfg c max delta t) q (fst (dec_all (huff_cfg c max delta t) hdec_new (wire ms fs))) beginning) = Err IndexError.
Proof.
  intros ord c max delta t ms e fs q hs e' a b Ho Hc Hm E F Hb.
  set (cfg := huff_cfg c max delta t) in *.
  pose proof (headerdiff_strings cfg (hd_huffman c max delta t Hc)) as St.
  destruct (session_ok ord Ho cfg St ms _ _ _ _ (hsim_new cfg Hm) E) as (d' & rs & D & S & _).
  rewrite D. cbn [fst].
  destruct (msg_cut ord cfg _ q hs _ _ _ _ a b Ho St (huff_cut cfg c (table_node c Hc) eq_refl) S F eq_refl Hb)
    as (out & _ & [K|([] & _)]). exact K.
Qed.
Print Assumptions C75_huffman_cut_detected.

(** Without Huffman coding a cut can go unnoticed, and then the table holds the
    shortened value: a later frame, complete, is decoded to a header never sent. *)
Definition c75_cfg : hcfg := plain_cfg 4096 true DFull.
Definition c75_msgs : list msg := [(true, [(lit "x-id", lit "abcdef")]); (true, [(lit "x-id", lit "abcdef")])].

Theorem C75_cut_detected_refuted : exists f1 f2,
  snd (enc_all (fun _ l => l) c75_cfg henc_new c75_msgs) = Ok [f1; f2] /\
  snd (dec_all c75_cfg hdec_new [(true, firstn (length f1 - 2) f1); (true, f2)]) =
    [Ok [(lit "x-id", lit "abcd")]; Ok [(lit "x-id", lit "abcd")]].
Proof. do 2 eexists. split; vm_compute; reflexivity. Qed.
Print Assumptions C75_cut_detected_refuted.

Example C75_example :
  exists f1 f2, snd (enc_all (fun _ l => l) c75_cfg henc_new c75_msgs) = Ok [f1; f2] /\
  map (fun k => snd (hd_decode c75_cfg true hdec_new (firstn k f1))) (seq 0 (length f1)) =
    repeat (Err IndexError) 16 ++ map (fun k => Ok [(lit "x-id", firstn k (lit "abcdef"))]) (seq 0 6).
Proof. do 2 eexists. split; vm_compute; reflexivity. Qed.

Example C75_huffman_example :
  exists f, snd (hd_encode (fun _ l => l) (huff_cfg request_codec 4096 true DFull) true henc_new [(lit "x-id", lit "abcdef")]) = Ok f /\
  length f = 19%nat /\
  map (fun k => snd (hd_decode (huff_cfg request_codec 4096 true DFull) true hdec_new (firstn k f))) (seq 0 19) = repeat (Err IndexError) 19.
Proof. eexists. split; [vm_compute; reflexivity|]. split; vm_compute; reflexivity. Qed.

(** ** C76: over the limit. *)

(** Frames never put the table back within its limit: nothing is ever changed
    again, and every frame that announces a header raises the general exception. *)
Theorem C76_over_limit_for_ever : forall cfg frames d,
  (h_max cfg < hd_size d)%Z ->
  dec_all cfg d frames =
    (d, map (fun qf : bool * str => match nth_error (snd qf) 8 with
             | None => Err IndexError
             | Some n => if n =? 0 then Ok [] else Err GenericException
             end) frames).
Proof.
  intros cfg frames d H. induction frames as [|[q f] l IH]; [reflexivity|]. cbn [dec_all map snd].
  assert (E : hd_decode cfg q d f = (d, match nth_error f 8 with
             | None => Err IndexError | Some n => if n =? 0 then Ok [] else Err GenericException end)).
  { unfold hd_decode, hd_decode_payload.
    assert (E8 : hd_byte (skipn 8 f) = match nth_error f 8 with Some x => Ok (x, skipn 9 f) | None => Err IndexError end).
    { do 8 (destruct f as [|? f]; [reflexivity|]). cbn [skipn nth_error]. destruct f; reflexivity. }
    rewrite E8. destruct (nth_error f 8) as [x|]; [|reflexivity].
    destruct (N.eqb_spec x 0) as [->|Hx]; [reflexivity|].
    destruct (N.to_nat x) as [|n] eqn:En; [lia|]. cbn [decode_list]. unfold decode_one.
    apply Z.ltb_lt in H. rewrite H. reflexivity. }
  rewrite E, IH. reflexivity.
Qed.
Print Assumptions C76_over_limit_for_ever.

(** And one accepted frame reaches it from any state within the limit: one
    literal header, indexed, longer than the limit. *)
Theorem C76_one_frame_suffices : forall cfg q d,
  headerdiff cfg -> (0 <= hd_size d <= h_max cfg)%Z ->
  exists frame d' hs, hd_decode cfg q d frame = (d', Ok hs) /\ (h_max cfg < hd_size d')%Z.
Proof.
  intros cfg q d H Hd.
  assert (Hw : forall s, is_bytes s -> exists bs, h_write cfg s = Ok bs).
  { intros s Hs. destruct H as [max delta t|c max delta t Hc]; cbn [plain_cfg huff_cfg h_write].
    - destruct (HD_Int.hd_plain_ok s) as (bs & E & _). eauto.
    - now apply C13_huffman_writes_octets. }
  set (v := repeat 97 (S (Z.to_nat (h_max cfg)))).
  destruct (Hw (lit "x")) as (wn & En). { repeat constructor. }
  destruct (Hw v) as (wv & Ev). { apply Forall_forall. intros x Hx. apply repeat_spec in Hx. subst x. reflexivity. }
  exists ([0; 0; 0; 0; 0; 0; 0; 0; 1; 32] ++ wn ++ wv ++ []).
  unfold hd_decode, hd_decode_payload. cbn [app skipn hd_byte]. change (N.to_nat 1) with 1%nat.
  cbn [decode_list]. unfold decode_one. destruct (Z.ltb_spec (h_max cfg) (hd_size d)); [lia|]. cbn [hd_byte].
  change (0 <? N.land 32 128) with false. cbn iota.
  change (N.land 32 48 =? 32) with true. change (N.land 32 48 =? 48) with false. cbn [orb]. cbn iota. unfold decode_name.
  change (0 <? N.land 32 64) with false. cbn iota.
  change (hd_read_int 32 4 (wn ++ wv ++ [])) with (Ok (0, wn ++ wv ++ []) : res (N * str)).
  cbn iota. change (0 =? 0) with true. cbn iota.
  rewrite (literal_ok cfg _ _ _ (headerdiff_strings _ H) En). cbn [bind].
  rewrite (literal_ok cfg _ _ _ (headerdiff_strings _ H) Ev). cbn [bind].
  change (N.land 32 64 =? 64) with false. cbn iota. cbn [bind].
  do 2 eexists. split; [reflexivity|]. cbn [set_d_tbl hd_size].
  assert (hd_size (add_d_name q d (lit "x")) = hd_size d) as -> by now destruct q.
  unfold zlen, v. rewrite repeat_length. lia.
Qed.
Print Assumptions C76_one_frame_suffices.

Example C76_example :
  let cfg := plain_cfg 6 true DFull in
  snd (dec_all cfg hdec_new
    [(true, repeat 0 8 ++ [1; 32; 1; 120; 7; 97; 97; 97; 97; 97; 97; 97]);
     (true, repeat 0 8 ++ [0]); (true, repeat 0 8 ++ [1; 128]); (false, [])]) =
  [Ok [(lit "x", lit "aaaaaaa")]; Ok []; Err GenericException; Err IndexError].
Proof. vm_compute. reflexivity. Qed.
