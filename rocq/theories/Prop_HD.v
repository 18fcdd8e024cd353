(** * Properties C09-C12, C15 and C47: headerdiff. *)
From Coq Require Import String List NArith ZArith Bool Arith Lia ZifyN ZifyNat Permutation.
From Verif Require Import PyBase NBits PyStr PyMerge Lib_Model Lib_Spec Lib_Proofs HTTP2_Proc_Model HTTP2_Proc
  HD_Model HD_Int HD_Sim HD_Step HD_Spec HD_Session HD_Total HD_Proc_Model.
Import ListNotations.
Open Scope N_scope.
Open Scope py_scope.

(** ** C09: integers.

    A flag octet leaves the low [p] bits free for the integer.  When [p] is 0
    the reader is handed whatever octet the caller has at hand. *)
Theorem C09_headerdiff_integers : forall p flags v other,
  In p [0; 4; 5; 6; 8] -> (exists k, flags = k * 2 ^ p) -> flags < 256 ->
  exists octets, hd_write_int flags p v = Ok octets /\ Forall (fun b => b < 256) octets /\
    forall rest,
      if p =? 0 then hd_read_int other 0 (octets ++ rest) = Ok (v, rest)
      else exists b tl, octets = b :: tl /\ b / 2 ^ p = flags / 2 ^ p /\ hd_read_int b p (tl ++ rest) = Ok (v, rest).
Proof.
  intros p flags v other Hp [k Hk] Hf.
  assert (Hpow : 0 < 2 ^ p) by (apply N.neq_0_lt_0, N.pow_nonzero; lia).
  assert (Hz : flags mod 2 ^ p = 0) by (subst flags; apply N.mod_mul; lia).
  assert (Hb : flags + N.ones p < 256).
  { rewrite N.ones_equiv. assert (k * 2 ^ p < 256 -> k * 2 ^ p + N.pred (2 ^ p) < 256).
    { cbn [In] in Hp. repeat (destruct Hp as [<-|Hp]; [vm_compute (2 ^ _); lia|]). contradiction. }
    subst flags. auto. }
  destruct (hd_write_read_int p flags other v Hp Hb Hz) as (bs & E & Hby & _ & Hfirst & R).
  exists bs. split; [exact E|]. split; [exact Hby|].
  intros rest. specialize (R rest). unfold hd_read_at in R. destruct (N.eqb_spec p 0) as [->|Hne]; [exact R|].
  destruct Hfirst as (b & tl & -> & Hr); [lia|]. exists b, tl. split; [reflexivity|].
  split; [|exact R].
  assert (Hd : b / 2 ^ p = k).
  { symmetry. apply N.div_unique with (r := b - flags); [|subst flags; lia].
    rewrite N.ones_equiv in Hr. lia. }
  rewrite Hd. subst flags. symmetry. apply N.div_mul. lia.
Qed.
Print Assumptions C09_headerdiff_integers.

Theorem C09_headerdiff_integers_14_bits : forall flags v,
  In flags [0; 64; 128; 192] -> v < 16383 ->
  exists b0 b1, hd_write_int flags 14 v = Ok [b0; b1] /\ b0 < 256 /\ b1 < 256 /\ b0 / 64 = flags / 64 /\
    forall rest, hd_read_int b0 14 (b1 :: rest) = Ok (v, rest).
Proof.
  intros flags v Hf Hv. apply hd_write_read_14; [| |exact Hv];
    cbn [In] in Hf; repeat (destruct Hf as [<-|Hf]; [reflexivity|]); contradiction.
Qed.
Print Assumptions C09_headerdiff_integers_14_bits.

Theorem C09_headerdiff_large_14_bits_raise : forall flags v,
  16383 <= v -> hd_write_int flags 14 v = Err StructError.
Proof. intros flags v. apply hd_write_14_large. Qed.
Print Assumptions C09_headerdiff_large_14_bits_raise.

Example C09_example :
  hd_write_int 48 4 1000 = Ok [63; 217; 7] /\ hd_read_int 63 4 [217; 7; 99] = Ok (1000, [99]) /\
  hd_write_int 192 14 16382 = Ok [255; 254] /\ hd_read_int 255 14 [254; 99] = Ok (16382, [99]) /\
  hd_write_int 0 0 0 = Ok [0] /\ hd_write_int 64 5 31 = Ok [95; 0].
Proof. vm_compute. repeat split. Qed.

(** ** C10: sessions.

    [strings_ok cfg]: a written literal string is read back whatever follows
    it; it holds without Huffman coding (next theorem), and with it by C13. *)
Theorem C10_headerdiff_session_round_trip : forall ord cfg ms e' fs,
  some_order ord -> strings_ok cfg -> (0 <= h_max cfg)%Z ->
  distinct_texts ms ->
  enc_all ord cfg henc_new ms = (e', Ok fs) ->
  snd (dec_all cfg hdec_new (wire ms fs)) = map (fun m => Ok (snd m)) ms.
Proof.
  intros ord cfg ms e' fs Ho Hs Hm Hd E.
  destruct (session_ok ord Ho cfg Hs ms _ _ _ _ (hsim_new cfg Hm) E) as (d' & rs & D & _ & T & I).
  rewrite D. cbn [snd].
  assert (Hrs : rs = map snd ms).
  { assert (Hin : forall x, In x (concat rs) -> In x (all_headers ms)).
    { intros x Hx. destruct (I x Hx) as [|[]]; assumption. }
    clear - T Hin Hd. unfold distinct_texts, all_headers in *. rewrite flat_map_concat_map in *.
    revert Hin Hd. generalize (map snd ms) T. clear T ms. intros hss T.
    cut (forall S, (forall x, In x (concat rs) -> In x S) -> (forall x, In x (concat hss) -> In x S) ->
          (forall a b, In a S -> In b S -> fst a ++ snd a = fst b ++ snd b -> a = b) -> rs = hss).
    { intros H Hin Hd. apply (H (concat hss)); auto. }
    intros S H1 H2 Hd. induction T as [|hs hs' hss rs T1 T2 IH]; [reflexivity|].
    cbn [concat] in *. f_equal.
    - assert (H1' : forall x, In x hs' -> In x S) by (intros; apply H1, in_or_app; now left).
      assert (H2' : forall x, In x hs -> In x S) by (intros; apply H2, in_or_app; now left).
      clear - T1 H1' H2' Hd. induction T1 as [|a b hs hs' Hab T IH]; [reflexivity|]. f_equal.
      + symmetry. apply Hd; [apply H2'; now left|apply H1'; now left|exact Hab].
      + apply IH; intros; [apply H1'|apply H2']; now right.
    - apply IH; intros; [apply H1|apply H2]; apply in_or_app; now right. }
  rewrite Hrs, map_map. reflexivity.
Qed.
Print Assumptions C10_headerdiff_session_round_trip.

Theorem C10_plain_strings_ok : forall max delta t, strings_ok (plain_cfg max delta t).
Proof. exact plain_strings_ok. Qed.
Print Assumptions C10_plain_strings_ok.

(** The only ways the encoder can fail: more than 255 headers, a table with
    more than 16447 entries, or a payload of 65536 octets or more. *)
Theorem C10_headerdiff_encodes : forall ord max delta t ms e fs q hs,
  some_order ord -> (0 <= max)%Z ->
  enc_all ord (plain_cfg max delta t) henc_new ms = (e, Ok fs) ->
  (length hs <= 255)%nat -> N.of_nat (length (he_tbl e) + length hs) <= 16447 ->
  exists e' payload, hd_payload ord (plain_cfg max delta t) q e hs = (e', Ok payload) /\
    snd (hd_encode ord (plain_cfg max delta t) q e hs) =
      if lenN payload <? 65536 then Ok ([lenN payload / 256; lenN payload mod 256; 0; 0; 0; 0; 0; 0] ++ payload)
      else Err StructError.
Proof.
  intros ord max delta t ms e fs q hs Ho Hm E Hn Hl.
  destruct (session_ok ord Ho _ (plain_strings_ok max delta t) ms _ _ _ _ (hsim_new (plain_cfg max delta t) Hm) E)
    as (d' & rs & _ & S & _).
  assert (Hw : forall s, exists bs, h_write (plain_cfg max delta t) s = Ok bs).
  { intros s. destruct (hd_plain_ok s) as (bs & Eb & _). eauto. }
  destruct (payload_total ord Ho _ (plain_strings_ok max delta t) Hw q e d' hs S Hn Hl) as (e' & s & Ep & _).
  exists e', s. split; [exact Ep|]. unfold hd_encode. rewrite Ep. cbn [snd bind]. unfold hd_frame, pack_H.
  destruct (lenN s <? 65536); [|reflexivity]. cbn [bind]. rewrite shiftr8, land255. reflexivity.
Qed.
Print Assumptions C10_headerdiff_encodes.

(** The limit on the buffer size: with a negative one nothing can be decoded. *)
Theorem C10_negative_buffer_refuted : exists ms fs,
  snd (enc_all (fun _ l => l) (plain_cfg (-1) true DFull) henc_new ms) = Ok fs /\ distinct_texts ms /\
  snd (dec_all (plain_cfg (-1) true DFull) hdec_new (wire ms fs)) = [Err GenericException].
Proof.
  exists [(true, [(lit "a", lit "b")])]. eexists. split; [vm_compute; reflexivity|]. split.
  - intros a b [<-|[]] [<-|[]] _. reflexivity.
  - vm_compute. reflexivity.
Qed.
Print Assumptions C10_negative_buffer_refuted.

(** The encoder's tables are updated before the length of the frame is known:
    after an exception for a frame of 65536 octets or more, the next message
    refers to an entry the decoder never saw. *)
Definition big_value : str := repeat 97 (N.to_nat 65536).
Theorem C10_after_exception_refuted :
  let cfg := plain_cfg 10 true DFull in
  exists m1 m2 e1 f,
    hd_encode (fun _ l => l) cfg true henc_new m1 = (e1, Err StructError) /\
    snd (hd_encode (fun _ l => l) cfg true e1 m2) = Ok f /\
    distinct_texts [(true, m1 ++ m2)] /\
    snd (hd_decode cfg true hdec_new f) = Err IndexError.
Proof.
  intros cfg. exists [(lit "a", lit "b"); (lit "c", big_value)], [(lit "a", lit "b")].
  exists (fst (hd_encode (fun _ l => l) cfg true henc_new [(lit "a", lit "b"); (lit "c", big_value)])).
  exists [0; 2; 0; 0; 0; 0; 0; 0; 1; 128].
  split; [rewrite surjective_pairing at 1; f_equal; vm_compute; reflexivity|].
  split; [vm_compute; reflexivity|]. split; [|vm_compute; reflexivity].
  intros a b Ha Hb. cbn [all_headers flat_map snd app] in Ha, Hb.
  destruct Ha as [<-|[<-|[<-|[]]]]; destruct Hb as [<-|[<-|[<-|[]]]]; try reflexivity;
    cbn [fst snd]; intros E; apply (f_equal (hd 0)) in E; vm_compute in E; discriminate.
Qed.
Print Assumptions C10_after_exception_refuted.

(** A session with indexed headers, delta references, substitution and new
    names, in bounded-delta mode with a small buffer. *)
Definition c10_msgs : list msg :=
  [ (true, [(lit ":path", lit "/index.html"); (lit "x-new", lit "one"); (lit "accept", lit "*"); (lit "accept", lit "*")]);
    (true, [(lit ":path", lit "/index.htm"); (lit "x-new", lit "one"); (lit "referer", lit "0123456789")]);
    (true, [(lit "x-new", lit "one")]);
    (true, [(lit "x-new", lit "one")]);
    (true, [(lit "x-other", lit "0123456789abcd"); (lit "x-new", lit "one")]) ].
Definition c10_cfg : hcfg := plain_cfg 30 true (DBound (lit "/&= ,")).
Lemma c10_distinct : distinct_texts c10_msgs.
Proof.
  intros a b Ha Hb. vm_compute in Ha, Hb.
  repeat (destruct Ha as [<-|Ha]; [repeat (destruct Hb as [<-|Hb]; [solve [reflexivity|discriminate]|]); contradiction|]).
  contradiction.
Qed.
Example C10_example :
  distinct_texts c10_msgs /\
  match enc_all (fun _ l => rev l) c10_cfg henc_new c10_msgs with
  | (e, Ok fs) => map (skipn 8) fs = [
       [4; 44; 11; 47; 105; 110; 100; 101; 120; 46; 104; 116; 109; 108; 32; 5; 120; 45; 110; 101; 119; 3; 111; 110; 101; 33; 1; 42; 130];
       [3; 44; 10; 47; 105; 110; 100; 101; 120; 46; 104; 116; 109; 129; 16; 10; 48; 49; 50; 51; 52; 53; 54; 55; 56; 57];
       [1; 129]; [1; 129];
       [2; 48; 7; 120; 45; 111; 116; 104; 101; 114; 0; 14; 48; 49; 50; 51; 52; 53; 54; 55; 56; 57; 97; 98; 99; 100; 129]]
  | _ => False
  end.
Proof. split; [exact c10_distinct|]. vm_compute. reflexivity. Qed.

(** ** C11: headers whose concatenations agree. *)
Theorem C11_decoded_text_is_sent_text : forall ord cfg ms e' fs,
  some_order ord -> strings_ok cfg -> (0 <= h_max cfg)%Z ->
  enc_all ord cfg henc_new ms = (e', Ok fs) ->
  exists out, snd (dec_all cfg hdec_new (wire ms fs)) = map Ok out /\
    Forall2 (Forall2 (fun sent got => fst sent ++ snd sent = fst got ++ snd got)) (map snd ms) out.
Proof.
  intros ord cfg ms e' fs Ho Hs Hm E.
  destruct (session_ok ord Ho cfg Hs ms _ _ _ _ (hsim_new cfg Hm) E) as (d' & rs & D & _ & T & _).
  exists rs. rewrite D. split; [reflexivity|exact T].
Qed.
Print Assumptions C11_decoded_text_is_sent_text.

Theorem C11_different_headers_confused_refuted : exists ms fs out,
  snd (enc_all (fun _ l => l) (plain_cfg 32768 true DFull) henc_new ms) = Ok fs /\
  snd (dec_all (plain_cfg 32768 true DFull) hdec_new (wire ms fs)) = map Ok out /\
  out <> map snd ms.
Proof.
  exists [(true, [(lit "x", lit "yz"); (lit "xy", lit "z")])], [[0; 8; 0; 0; 0; 0; 0; 0; 2; 32; 1; 120; 2; 121; 122; 128]],
    [[(lit "x", lit "yz"); (lit "x", lit "yz")]].
  split; [vm_compute; reflexivity|]. split; [vm_compute; reflexivity|].
  vm_compute. discriminate.
Qed.
Print Assumptions C11_different_headers_confused_refuted.

(** ** C12: the decoder's table. *)

(** Frames made by an encoder: nothing raises, the tables agree index by
    index, the accounted size is the octets held and within the buffer. *)
Theorem C12_tables_agree : forall ord max delta t ms e' fs,
  some_order ord -> (0 <= max)%Z ->
  enc_all ord (plain_cfg max delta t) henc_new ms = (e', Ok fs) ->
  let '(d', rs) := dec_all (plain_cfg max delta t) hdec_new (wire ms fs) in
  (forall r, In r rs -> exists hs, r = Ok hs) /\ agree_tables e' d' /\
  hd_size d' = held (hd_tbl d') /\ he_size e' = hd_size d' /\ (hd_size d' <= max)%Z.
Proof.
  intros ord max delta t ms e' fs Ho Hm E.
  destruct (session_ok ord Ho _ (plain_strings_ok max delta t) ms _ _ _ _ (hsim_new (plain_cfg max delta t) Hm) E)
    as (d' & rs & D & S & _).
  rewrite D. split; [|split; [|split; [|split]]].
  - intros r Hr. apply in_map_iff in Hr. destruct Hr as (x & <- & _). eauto.
  - apply tsim_agree, S.
  - destruct (dec_all_acc (plain_cfg max delta t)
       (fold_right Z.max 0%Z (map (fun qf : bool * str => (2 * max + zlen (snd qf))%Z) (wire ms fs)))
       (plain_bounded max delta t) (wire ms fs) hdec_new d' (map Ok rs)) as [A _]; [| |exact D|exact A].
    + intros q f Hf. cbn [plain_cfg h_max]. clear D.
      induction (wire ms fs) as [|y l IH]; [contradiction|]. cbn [map fold_right].
      destruct Hf as [->|Hf]; [cbn [snd]; lia|]. specialize (IH Hf). lia.
    + split; cbn; [reflexivity|]. clear. induction (wire ms fs); cbn; lia.
  - symmetry. apply S.
  - rewrite (s_size _ _ _ S). exact (s_max _ _ _ S).
Qed.
Print Assumptions C12_tables_agree.

(** Arbitrary octets: the accounted size is always the octets held, also after
    exceptions, and at most twice the buffer plus the longest frame. *)
Theorem C12_accounting_arbitrary_input : forall max delta t frames longest,
  (0 <= max)%Z -> (forall q f, In (q, f) frames -> (length f <= longest)%nat) ->
  let d' := fst (dec_all (plain_cfg max delta t) hdec_new frames) in
  hd_size d' = held (hd_tbl d') /\ (0 <= hd_size d' <= 2 * max + Z.of_nat longest)%Z.
Proof.
  intros max delta t frames longest Hm Hl d'.
  destruct (dec_all (plain_cfg max delta t) hdec_new frames) as [d1 rs] eqn:D. unfold d'. cbn [fst].
  destruct (dec_all_acc (plain_cfg max delta t) (2 * max + Z.of_nat longest)%Z (plain_bounded max delta t)
    frames hdec_new d1 rs) as [A B]; [| |exact D|].
  - intros q f Hf. apply Hl in Hf. cbn [plain_cfg h_max]. unfold zlen. lia.
  - split; [reflexivity|]. change (hd_size hdec_new) with 0%Z. lia.
  - split; [exact A|]. split; [rewrite A; apply held_nonneg|exact B].
Qed.
Print Assumptions C12_accounting_arbitrary_input.

(** "At most the maximum" does not hold: the check comes before each header,
    so the last one may exceed it. *)
Theorem C12_size_bound_refuted : exists frame hs d',
  hd_decode (plain_cfg 4 true DFull) true hdec_new frame = (d', Ok hs) /\ (4 < hd_size d')%Z.
Proof.
  exists [0; 0; 0; 0; 0; 0; 0; 0; 1; 33; 5; 97; 97; 97; 97; 97]. do 2 eexists. split; [vm_compute; reflexivity|reflexivity].
Qed.
Print Assumptions C12_size_bound_refuted.

Example C12_example :
  match enc_all (fun _ l => rev l) c10_cfg henc_new c10_msgs with
  | (e, Ok fs) =>
      let d := fst (dec_all c10_cfg hdec_new (wire c10_msgs fs)) in
      hd_tbl d = [(lit "x-other", lit "0123456789abcd"); (lit "x-new", lit "one"); (lit "accept", lit "*"); (lit ":path", lit "/index.htm")]
      /\ map i_index (he_tbl e) = [1%nat; 2%nat; 3%nat; 0%nat] /\ hd_size d = 28%Z
  | _ => False
  end.
Proof. vm_compute. repeat split. Qed.

(** ** C15: deflate mode. *)

(** What reaches the inflater is the deflater's output behind eight octets. *)
Theorem C15_inflater_input : forall ord deflate cfg q e hs e' frame,
  hd_encode_deflated ord deflate cfg q e hs = (e', Ok frame) ->
  exists payload header, hd_payload ord cfg q e hs = (e', Ok payload) /\ length header = 8%nat /\
    frame = header ++ deflate payload /\
    forall inflate d, hd_decode_deflated inflate cfg q d frame =
      match inflate (header ++ deflate payload) with
      | Ok s => hd_decode_payload cfg q d s
      | Err x => (d, Err x)
      end.
Proof.
  intros ord deflate cfg q e hs e' frame. unfold hd_encode_deflated.
  destruct (hd_payload ord cfg q e hs) as [e1 r] eqn:P. intros E.
  assert (e1 = e') by congruence. subst e1. apply (f_equal snd) in E. cbn [snd] in E.
  apply bind_ok in E. destruct E as (s & -> & E). unfold hd_frame in E.
  apply bind_ok in E. destruct E as (h & H & E). apply pack_H_two in H.
  exists s, (h ++ [0; 0; 0; 0; 0; 0]). split; [reflexivity|]. split; [rewrite app_length, H; reflexivity|].
  assert (F : frame = (h ++ [0; 0; 0; 0; 0; 0]) ++ deflate s) by (rewrite <- app_assoc; congruence).
  split; [exact F|]. intros inflate d. unfold hd_decode_deflated. rewrite <- F.
  destruct (inflate frame); reflexivity.
Qed.
Print Assumptions C15_inflater_input.

(** So it is never what the deflater produced. *)
Theorem C15_inflater_input_refuted : forall ord deflate cfg q e hs e' frame payload,
  hd_payload ord cfg q e hs = (e', Ok payload) ->
  hd_encode_deflated ord deflate cfg q e hs = (e', Ok frame) ->
  exists inflate, (forall s, s = deflate payload -> inflate s = Ok payload) /\
    forall d, hd_decode_deflated inflate cfg q d frame = (d, Err GenericException).
Proof.
  intros ord deflate cfg q e hs e' frame payload P E.
  destruct (C15_inflater_input _ _ _ _ _ _ _ _ E) as (p' & h & P' & Hh & F & D).
  assert (p' = payload) by congruence. subst p'.
  exists (fun s => if str_eqb s (deflate payload) then Ok payload else Err GenericException). split.
  - intros s ->. now rewrite str_eqb_refl'.
  - intros d. rewrite D. destruct (str_eqb_spec (h ++ deflate payload) (deflate payload)) as [X|_]; [|reflexivity].
    exfalso. apply (f_equal (@length N)) in X. rewrite app_length, Hh in X. lia.
Qed.
Print Assumptions C15_inflater_input_refuted.

(** Without the eight octets it would work, for every deflate/inflate pair. *)
Theorem C15_without_header_works : forall ord deflate inflate cfg ms e fs q hs e' frame,
  some_order ord -> strings_ok cfg -> (0 <= h_max cfg)%Z ->
  enc_all ord cfg henc_new ms = (e, Ok fs) ->
  (forall s, inflate (deflate s) = Ok s) ->
  hd_encode_deflated ord deflate cfg q e hs = (e', Ok frame) ->
  let d := fst (dec_all cfg hdec_new (wire ms fs)) in
  exists out, snd (hd_decode_deflated inflate cfg q d (skipn 8 frame)) = Ok out /\
    Forall2 (fun sent got => fst sent ++ snd sent = fst got ++ snd got) hs out.
Proof.
  intros ord deflate inflate cfg ms e fs q hs e' frame Ho Hs Hm E Hi Ed d.
  destruct (session_ok ord Ho cfg Hs ms _ _ _ _ (hsim_new cfg Hm) E) as (d' & rs & D & S & _).
  unfold d. rewrite D. cbn [fst].
  destruct (C15_inflater_input _ _ _ _ _ _ _ _ Ed) as (p & h & P & Hh & F & _).
  assert (Hsk : skipn 8 frame = deflate p).
  { rewrite F, skipn_app, Hh, Nat.sub_diag. rewrite (skipn_all2 h) by lia. reflexivity. }
  unfold hd_decode_deflated. rewrite Hsk, Hi.
  unfold hd_payload in P.
  destruct (pack_B (lenN hs)) as [nb|] eqn:Pn; [|discriminate].
  set (e0 := set_e_tbl e (map grow_age (he_tbl e)) (he_size e)) in *.
  destruct (encode_list ord cfg q e0 hs) as [e1 r1] eqn:E1.
  apply (f_equal snd) in P. cbn [snd] in P. apply bind_ok in P. destruct P as (s & -> & P).
  assert (p = nb ++ s) as -> by congruence.
  assert (Hs0 : hsim cfg e0 d').
  { destruct S as [T0 S0 M0 R1 R2]. split; cbn; auto. apply tsim_map; auto. }
  destruct (encode_list_ok ord Ho cfg Hs q hs _ _ _ _ Hs0 E1) as (d2 & hs' & D2 & _ & T2 & _).
  exists hs'. split; [|exact T2].
  unfold hd_decode_payload. unfold pack_B in Pn. destruct (N.ltb_spec (lenN hs) 256); [|discriminate].
  assert (nb = [lenN hs]) as -> by congruence. cbn [app hd_byte].
  unfold lenN. rewrite Nat2N.id. specialize (D2 []). rewrite app_nil_r in D2. rewrite D2. reflexivity.
Qed.
Print Assumptions C15_without_header_works.

Example C15_example :
  snd (hd_encode_deflated (fun _ l => l) (fun s => 120 :: s) c10_cfg true henc_new [(lit "a", lit "b")])
    = Ok ([0; 7; 0; 0; 0; 0; 0; 0] ++ [120; 1; 32; 1; 97; 1; 98]).
Proof. vm_compute. reflexivity. Qed.

(** ** C47: the processor and the harness' check.

    [hdp_session]: compress, decompress with the same object, compare; the
    result lists the verdicts of compare_headers. *)
Fixpoint hdp_session (ho : nat -> list ih -> list ih) (cfg : hcfg) (q : bool) (ord : list (str * str) -> list (str * str))
    (st : henc * hdec) (ds : list hdict) : res (list str) :=
  match ds with
  | [] => Ok []
  | d :: ds' =>
      let* (st, frame) := hdp_compress ho cfg q st d in
      let* (st, back) := hdp_decompress cfg q st frame in
      let* vs := hdp_session ho cfg q ord st ds' in
      Ok (match back with
          | Some b => compare_headers ord d (lit "orig") b (lit "headerdiff")
          | None => []
          end :: vs)
  end.

Definition hd_msgs (q : bool) (ds : list hdict) : list msg := map (fun d => (q, hd_split d)) ds.

Lemma hd_split_in d h : In h (hd_split d) <-> In h (split_headers d).
Proof.
  destruct h as [k y]. destruct (split_headers_spec d) as [_ S]. etransitivity; [|symmetry; apply S].
  unfold hd_split. rewrite in_flat_map. split.
  - intros ([k' v] & Hd & Hx). apply in_map_iff in Hx. destruct Hx as (x & E & Hx).
    assert (k' = k /\ y = strip is_space x) as [-> ->] by (split; congruence). exists v, x. auto.
  - intros (v & x & Hd & Hx & ->). exists (k, v). split; [exact Hd|]. apply in_map_iff. exists x. auto.
Qed.

Theorem C47_headerdiff_passes_harness_check : forall ho cfg q ord ds e' fs,
  some_order ho -> strings_ok cfg -> (0 <= h_max cfg)%Z -> is_order ord ->
  Forall blank_only ds ->
  distinct_texts (hd_msgs q ds) ->
  enc_all ho cfg henc_new (hd_msgs q ds) = (e', Ok fs) ->
  hdp_session ho cfg q ord (henc_new, hdec_new) ds = Ok (map (fun _ => []) ds).
Proof.
  intros ho cfg q ord ds e' fs Hho Hs Hm Ho HB Hd E.
  pose proof (C10_headerdiff_session_round_trip ho cfg _ _ _ Hho Hs Hm Hd E) as R. clear Hd.
  pose proof (hsim_new cfg Hm) as S. revert S E R.
  generalize henc_new as e, hdec_new as d. revert e' fs.
  induction HB as [|m ds Hb _ IH]; intros e' fs e d S E R; cbn [hdp_session map]; [reflexivity|].
  cbn [hd_msgs map enc_all] in E. destruct (hd_encode ho cfg q e (hd_split m)) as [e1 [f|]] eqn:E1; [|discriminate].
  fold (hd_msgs q ds) in E. destruct (enc_all ho cfg e1 (hd_msgs q ds)) as [e2 [fs'|]] eqn:E2; [|discriminate].
  assert (e2 = e' /\ fs = f :: fs') as [-> ->] by (split; congruence).
  destruct (encode_msg_ok ho Hho cfg Hs _ _ _ _ _ _ S E1) as (d1 & hs1 & D1 & S1 & _).
  unfold wire in R. cbn [hd_msgs map fst snd combine dec_all] in R. rewrite D1 in R.
  fold (hd_msgs q ds) in R. fold (wire (hd_msgs q ds) fs') in R.
  destruct (dec_all cfg d1 (wire (hd_msgs q ds) fs')) as [d2 rs] eqn:D2. cbn [snd] in R.
  assert (hs1 = hd_split m /\ rs = map (fun m => Ok (snd m)) (hd_msgs q ds)) as [-> ->] by (split; congruence).
  unfold hdp_compress. cbn [fst snd]. rewrite E1. cbn [bind].
  unfold hdp_decompress. cbn [fst snd]. rewrite D1. cbn [bind].
  assert (R' : snd (dec_all cfg d1 (wire (hd_msgs q ds) fs')) = map (fun m => Ok (snd m)) (hd_msgs q ds)) by now rewrite D2.
  rewrite (IH _ _ _ _ S1 E2 R'). cbn [bind]. do 2 f_equal.
  apply compare_verdict; [exact Ho|]. apply (join_split_same m (hd_split m) Hb). intros h. apply hd_split_in.
Qed.
Print Assumptions C47_headerdiff_passes_harness_check.

(** Without the proviso on the texts the check reports a difference. *)
Theorem C47_headerdiff_check_refuted : exists ds vs,
  Forall blank_only ds /\
  hdp_session (fun _ l => l) (plain_cfg 32768 true DFull) true (fun l => l) (henc_new, hdec_new) ds = Ok vs /\
  exists v, In v vs /\ v <> [].
Proof.
  exists [[(lit "x", lit "yz"); (lit "xy", lit "z")]]. eexists. split; [|split].
  - repeat (apply Forall_cons; [apply blank_onlyb_ok; vm_compute; reflexivity|]). constructor.
  - vm_compute. reflexivity.
  - eexists. split; [now left|discriminate].
Qed.
Print Assumptions C47_headerdiff_check_refuted.

Definition c47_dicts : list hdict :=
  [ [(lit "cookie", lit "a=1; b=2;a=1"); (lit "x", lit "u" ++ [0] ++ lit "v"); (lit ":path", lit "/")];
    [(lit "x", lit " u" ++ [0] ++ lit "v "); (lit "y", []); (lit "cookie", lit "b=2;")] ].
Example C47_example :
  Forall blank_only c47_dicts /\ distinct_texts (hd_msgs true c47_dicts) /\
  (exists e fs, enc_all (fun _ l => l) (plain_cfg 100 true DFull) henc_new (hd_msgs true c47_dicts) = (e, Ok fs)).
Proof.
  split; [|split].
  - repeat (apply Forall_cons; [apply blank_onlyb_ok; vm_compute; reflexivity|]). constructor.
  - intros a b Ha Hb. vm_compute in Ha, Hb.
    repeat (destruct Ha as [<-|Ha]; [repeat (destruct Hb as [<-|Hb]; [solve [reflexivity|discriminate]|]); contradiction|]).
    contradiction.
  - destruct (enc_all (fun _ l => l) (plain_cfg 100 true DFull) henc_new (hd_msgs true c47_dicts)) as [e r] eqn:E.
    pose proof (f_equal snd E) as E2. vm_compute in E2. subst r. eauto.
Qed.
