(** * Properties C71 - C73: the http2 decoder and octets it should not trust. *)
From Coq Require Import String List NArith ZArith Bool Lia.
From Verif Require Import PyBase HTTP2_Model HTTP2_Int HTTP2_Sim HTTP2_Inv HTTP2_Spec HTTP2_More HTTP2_Hostile.
Import ListNotations.
Open Scope N_scope.
Open Scope py_scope.

Lemma fed_acct r max inputs : (octets_of_headers (default_headers r) <= max)%Z ->
  (0 <= max)%Z /\ acct max (feed max (init_decoder r) inputs).
Proof.
  intros Hm.
  assert (H0 : (0 <= max)%Z). { apply Z.le_trans with (2 := Hm). destruct r; vm_compute; discriminate. }
  split; [exact H0|]. apply feed_acct; auto with zarith. split.
  - destruct (init_good r) as [_ H]. exact H.
  - rewrite octets_headers_sum in Hm. exact Hm.
Qed.

Lemma flags_acct M d : acct M d -> acct M (mkDec (map (set_emit false) (d_tbl d)) (d_size d)).
Proof.
  intros [E L]. split; cbn [d_tbl d_size]; [|exact L]. rewrite E. unfold hdrs. rewrite map_map. reflexivity.
Qed.

(** ** C71: arbitrary octets.

    Whatever a decoder has been given before and whatever it is given now,
    it reports headers or raises IndexError.  [length stream - 8] octets
    behind the frame header give at most that many headers and those of the
    table, and at most [max + 1] octets of headers each. *)
Definition header_octets (hs : list header) : Z :=
  fold_right Z.add 0%Z (map (fun h : header => Z.of_nat (length (fst h) + length (snd h))) hs).

Lemma header_octets_total hs : header_octets hs = Z.of_nat (total hs).
Proof.
  unfold header_octets. induction hs as [|h hs IH]; [reflexivity|]. unfold total in *. cbn [map fold_right]. rewrite IH.
  unfold hlen. lia.
Qed.

Lemma kept_bound M d : acct M d ->
  (32 * Z.of_nat (length (kept d)) <= M)%Z /\ (Z.of_nat (total (kept d)) <= M)%Z.
Proof.
  intros [E L]. rewrite E in L. unfold kept.
  cut (32 * Z.of_nat (length (map e_hdr (filter (fun e => e_ref e && negb (e_emit e)) (d_tbl d)))) <= sum_len (hdrs (d_tbl d)) /\
       Z.of_nat (total (map e_hdr (filter (fun e => e_ref e && negb (e_emit e)) (d_tbl d)))) <= sum_len (hdrs (d_tbl d)))%Z; [lia|].
  clear E L. induction (d_tbl d) as [|e t IH]; [cbn; lia|]. cbn [filter hdrs map].
  change (sum_len (e_hdr e :: map e_hdr t)) with (entry_len (e_hdr e) + sum_len (map e_hdr t))%Z.
  change (map e_hdr t) with (hdrs t). unfold entry_len.
  destruct (e_ref e && negb (e_emit e)); cbn [map length total fold_right];
    fold (total (map e_hdr (filter (fun e => e_ref e && negb (e_emit e)) t))); unfold hlen; lia.
Qed.

Theorem C71_outcomes : forall is_request max inputs stream,
  (octets_of_headers (default_headers is_request) <= max)%Z ->
  let n := Z.of_nat (length (skipn 8 stream)) in
  match decode_headers max (feed max (init_decoder is_request) inputs) stream with
  | (_, Err e) => e = IndexError
  | (_, Ok hs) => (Z.of_nat (length hs) <= n + max / 32)%Z /\ (header_octets hs <= n * (max + 1) + max)%Z
  end.
Proof.
  intros r max inputs stream Hm n. destruct (fed_acct r max inputs Hm) as [H0 HA].
  unfold decode_headers. set (d := feed max (init_decoder r) inputs) in *.
  set (d0 := mkDec (map (set_emit false) (d_tbl d)) (d_size d)).
  assert (HA0 : acct max d0) by now apply flags_acct.
  pose proof (loop_cut max (length (skipn 8 stream)) (skipn 8 stream) [] d0 [] (length (skipn 8 stream))) as HC.
  rewrite app_nil_r in HC. specialize (HC (Nat.le_refl _) (Nat.le_refl _)).
  destruct (decode_loop (length (skipn 8 stream)) max d0 [] (skipn 8 stream)) as [d1 [hs|e]] eqn:E; [|exact HC].
  destruct (loop_work max max (Z.le_refl _) H0 _ _ _ _ _ _ HA0 E) as (HA1 & HL & HT).
  destruct (kept_bound max d1 HA1) as [K1 K2].
  fold (kept d1). rewrite app_length, header_octets_total, total_app. cbn [length total fold_right] in HL, HT.
  split.
  - assert (Z.of_nat (length (kept d1)) <= max / 32)%Z by (apply Z.div_le_lower_bound; lia). unfold n. lia.
  - assert (Z.of_nat (total hs) <= n * max + n)%Z; [|lia].
    unfold n. rewrite <- (Z2Nat.id max) at 1 by exact H0. lia.
Qed.
Print Assumptions C71_outcomes.

(** A stored header of 101 octets, reported five times by a message of ten
    octets: off, on, off, ... *)
Example C71_example :
  (octets_of_headers (default_headers true) <= 1500)%Z /\
  let d := feed 1500 (init_decoder true) [repeat 0 8 ++ [64; 1; 98; 100] ++ repeat 97 100; [7; 7]] in
  let k := N.of_nat (length (d_tbl d)) - 1 in
  match decode_headers 1500 d (repeat 0 8 ++ repeat (128 + k) 10) with
  | (_, Ok hs) => length hs = 5%nat /\ header_octets hs = 505%Z
  | (_, Err _) => False
  end.
Proof. vm_compute. split; [discriminate|split; reflexivity]. Qed.

(** ** C72: cut frames.

    [headers_kept d] are the headers of the reference set that the message
    did not mention; they are reported last. *)
Definition headers_kept (d : decoder) : list header :=
  map e_hdr (filter (fun e => e_ref e && negb (e_emit e)) (d_tbl d)).

(** Refuted: a frame whose end is missing - so that the length in its
    header is wrong - is accepted, and so is the message after it, both with
    headers that were not sent. *)
Definition two_messages : list (list header) :=
  [ [(lit "accept", lit "text"); (lit "host", lit "example.com")];
    [(lit "accept", lit "text"); (lit "host", lit "example.com")] ].

Theorem C72_cut_detected_refuted :
  exists c f1 f2 d outs, encode_all 10 4096 (init_encoder true) two_messages = Ok (c, [f1; f2]) /\
    decode_all 4096 (init_decoder true) [firstn (length f1 - 4) f1; f2] = (d, Ok outs) /\
    outs = [ [(lit "accept", lit "text"); (lit "host", lit "example")];
             [(lit "accept", lit "text"); (lit "host", lit "example")] ].
Proof.
  do 5 eexists. split; [vm_compute; reflexivity|]. split; [vm_compute; reflexivity|]. reflexivity.
Qed.
Print Assumptions C72_cut_detected_refuted.

(** What a cut frame can do: the decoder raises IndexError or reports a
    beginning of the headers the whole frame mentions - the last of them
    possibly with a beginning of its value -, followed by what is left of
    the reference set.  [a] is what arrives of [a ++ b]. *)
Theorem C72_cut : forall max d a b d1 hs,
  (8 <= length a)%nat ->
  decode_headers max d (a ++ b) = (d1, Ok hs) ->
  exists sent, hs = sent ++ headers_kept d1 /\
  match decode_headers max d a with
  | (_, Err e) => e = IndexError
  | (d2, Ok hs2) => exists n last, hs2 = firstn n sent ++ last ++ headers_kept d2 /\
      (last = [] \/
       exists name value j, nth_error sent n = Some (name, value) /\ (j < length value)%nat /\
         last = [(name, firstn j value)])
  end.
Proof.
  intros max d a b d1 hs H8 H. unfold decode_headers in *.
  rewrite skipn_app in H. replace (8 - length a)%nat with 0%nat in H by lia. change (skipn 0 b) with b in H.
  set (d0 := mkDec (map (set_emit false) (d_tbl d)) (d_size d)) in *.
  pose proof (loop_cut max (length (skipn 8 a ++ b)) (skipn 8 a) b d0 [] (length (skipn 8 a))
    (Nat.le_refl _) (Nat.le_refl _)) as HC.
  destruct (decode_loop (length (skipn 8 a ++ b)) max d0 [] (skipn 8 a ++ b)) as [d1' [hs1|e]]; [|discriminate].
  destruct HC as (sent & -> & HC). cbn [app] in H.
  assert (d1' = d1) as -> by congruence.
  exists sent. split. { unfold headers_kept. congruence. }
  destruct (decode_loop (length (skipn 8 a)) max d0 [] (skipn 8 a)) as [d2 [hs2|e]]; [|exact HC].
  destruct HC as (n & cut & -> & Hc). exists n, cut. split; [|exact Hc].
  cbn [app]. rewrite <- app_assoc. reflexivity.
Qed.
Print Assumptions C72_cut.

(** Every cut of the first frame above, by the number of octets that arrive:
    what is reported. *)
Example C72_example :
  match encode_all 10 4096 (init_encoder true) two_messages with
  | Ok (_, f1 :: _) =>
      length f1 = 32%nat /\
      let cut := fun n => snd (decode_headers 4096 (init_decoder true) (firstn n f1)) in
      map cut [8; 9; 10; 11; 14; 15; 20; 21; 28; 32]%nat =
      [ Ok []; Err IndexError; Ok [(lit "accept", [])]; Ok [(lit "accept", lit "t")];
        Ok [(lit "accept", lit "text")]; Err IndexError; Err IndexError;
        Ok [(lit "accept", lit "text"); (lit "host", [])];
        Ok [(lit "accept", lit "text"); (lit "host", lit "example")];
        Ok [(lit "accept", lit "text"); (lit "host", lit "example.com")] ]
  | _ => False
  end.
Proof. vm_compute. auto. Qed.

(** ** C73: where a substituted header lands.

    [t] are the headers of the table, the replaced one is at position [i].
    [k] is the number of entries evicted: the least number after which the
    new header fits with the others.  The header takes the place of the one
    it replaces if that is still there; otherwise it goes [k - i] places
    before the end of what is left (not to the front). *)
Theorem C73_substitution : forall is_request max inputs hdr8 name value i wn wi wv,
  (octets_of_headers (default_headers is_request) <= max)%Z ->
  let d := feed max (init_decoder is_request) inputs in
  let t := map e_hdr (d_tbl d) in
  let new := (name, value) in
  length hdr8 = 8%nat ->
  write_literal_string name = Ok wn -> write_integer 0 0 (N.of_nat i) = Ok wi ->
  write_literal_string value = Ok wv ->
  (i < length t)%nat ->
  exists d' rest k, decode_headers max d (hdr8 ++ 0 :: wn ++ wi ++ wv) = (d', Ok (new :: rest)) /\
    (k <= length t)%nat /\
    (forall j, (j < k)%nat -> (octets_of_headers (new :: others t i j) > max)%Z) /\
    ((k < length t)%nat -> (octets_of_headers (new :: others t i k) <= max)%Z) /\
    map e_hdr (d_tbl d') =
      if (max <? octets_of_headers [new])%Z then []
      else if (k <=? i)%nat then replaced (skipn k t) (i - k) new
      else let left := skipn k t in
           let p := (length left - (k - i))%nat in firstn p left ++ new :: skipn p left.
Proof.
  intros r max inputs hdr8 name value i wn wi wv Hm d t new H8 En Ei Ev Hi.
  destruct (fed_acct r max inputs Hm) as [H0 HA]. fold d in HA.
  set (d0 := mkDec (map (set_emit false) (d_tbl d)) (d_size d)).
  assert (HA0 : acct max d0) by now apply flags_acct.
  assert (Et : hdrs (d_tbl d0) = t). { unfold d0, hdrs, t. cbn [d_tbl]. rewrite map_map. reflexivity. }
  destruct (write_read_literal name) as (bn & En' & _ & Rn). assert (bn = wn) as -> by congruence.
  destruct (write_read_literal value) as (bv & Ev' & _ & Rv). assert (bv = wv) as -> by congruence.
  destruct (write_read_integer 0 0 (N.of_nat i)) as (bi & Ei' & _ & _ & _ & Ri);
    [lia|reflexivity|reflexivity|]. assert (bi = wi) as -> by congruence. unfold read_int_at in Ri. cbn [N.eqb] in Ri.
  assert (Ho : exists old, nth_error (d_tbl d0) i = Some old).
  { destruct (nth_error (d_tbl d0) i) eqn:E; [eauto|]. apply nth_error_None in E.
    rewrite <- (hdrs_length (d_tbl d0)), Et in E. lia. }
  destruct Ho as (old & Ho).
  destruct (substitute_spec max (new_entry new true true) i d0 old HA0 Ho) as (d' & k & Es & K1 & K2 & K3 & K4).
  rewrite Et in *. cbn [new_entry e_hdr] in K1, K2, K3, K4.
  exists d', (kept d'), k. split; [|split; [exact K1|split; [exact K2|split; [exact K3|exact K4]]]].
  unfold decode_headers.
  assert (Eb : skipn 8 (hdr8 ++ 0 :: wn ++ wi ++ wv) = 0 :: wn ++ wi ++ wv).
  { rewrite skipn_app, H8, (skipn_all2 hdr8) by lia. reflexivity. }
  rewrite Eb. fold d0.
  cbn [length decode_loop].
  assert (E1 : decode_one max d0 0 (wn ++ wi ++ wv) = Ok (d', [new], [])).
  { rewrite decode_one_alt. change (0 <? N.land 0 128) with false. cbv iota.
    change (lit_kind 0) with (SUBSTITUTION, 6). cbn [fst snd].
    change (read_integer 0 6 (wn ++ wi ++ wv)) with (@Ok (N * str) (0, wn ++ wi ++ wv)). cbn [bind].
    unfold lit_rest, the_name. cbn [N.eqb]. rewrite Rn. cbn [bind]. rewrite Ri. cbn [bind].
    rewrite <- (app_nil_r wv), Rv. cbn [bind]. fold new.
    match goal with |- bind ?X _ = _ => replace X with (Ok d') by (symmetry; exact Es) end. reflexivity. }
  rewrite E1. set (n := length (wn ++ wi ++ wv)).
  destruct n; reflexivity.
Qed.
Print Assumptions C73_substitution.

(** Refuted: "if the replaced entry is evicted, the new one becomes the
    first (oldest) entry".  A table of exactly the allowed size, the first
    entry replaced by a larger one: four entries are evicted, the new one is
    followed by four others, and the next message asking for entry 0 gets
    another header. *)
Theorem C73_front_refuted :
  exists frame new, let max := octets_of_headers (default_headers true) in
  match decode_headers max (init_decoder true) frame with
  | (d, Ok hs) => hs = [new] /\
      nth_error (map e_hdr (d_tbl d)) 22 = Some new /\ length (d_tbl d) = 27%nat /\
      match decode_headers max d (repeat 0 8 ++ [128]) with
      | (_, Ok hs2) => hd_error hs2 <> Some new
      | (_, Err _) => False
      end
  | (_, Err _) => False
  end.
Proof.
  exists (repeat 0 8 ++ [0; 1; 120; 0; 120] ++ repeat 97 120), (lit "x", repeat 97 120).
  vm_compute. split; [reflexivity|]. split; [reflexivity|]. split; [reflexivity|]. discriminate.
Qed.
Print Assumptions C73_front_refuted.

Example C73_example :
  write_literal_string (lit "x") = Ok [1; 120] /\ write_integer 0 0 0 = Ok [0] /\
  write_literal_string (repeat 97 120) = Ok (120 :: repeat 97 120) /\
  length (default_headers true) = 30%nat.
Proof. vm_compute. auto. Qed.
