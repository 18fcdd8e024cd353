(** * http2 decoder on octets no encoder made, and on beginnings of frames:
      lemmas for C71 - C73. *)
From Coq Require Import String List NArith ZArith Bool Lia.
From Verif Require Import PyBase HTTP2_Model HTTP2_Int HTTP2_Sim HTTP2_Inv HTTP2_Spec HTTP2_More.
Import ListNotations.
Open Scope N_scope.
Open Scope py_scope.

(** ** Readers: a result or IndexError, and what a longer input changes *)

(** [reader r a b]: on [a ++ b] the reader [r] either raises IndexError or
    gives a value; when it gives a value, then on [a] alone it gives the same
    value having read only octets of [a], or it raises IndexError. *)
Definition cut_ok {A} (r : str -> res (A * str)) : Prop := forall a b,
  r (a ++ b) = Err IndexError \/
  exists v s, r (a ++ b) = Ok (v, s) /\ (length s <= length (a ++ b))%nat /\
    ((exists a', r a = Ok (v, a') /\ s = a' ++ b) \/ r a = Err IndexError).

Lemma digits_cut a b : forall x v sh,
  read_digits x v sh (a ++ b) = Err IndexError \/
  exists w s, read_digits x v sh (a ++ b) = Ok (w, s) /\ (length s <= length (a ++ b))%nat /\
    ((exists a', read_digits x v sh a = Ok (w, a') /\ s = a' ++ b) \/ read_digits x v sh a = Err IndexError).
Proof.
  induction a as [|y a IH]; intros x v sh.
  - cbn [app]. cut (read_digits x v sh b = Err IndexError \/
      exists w s, read_digits x v sh b = Ok (w, s) /\ (length s <= length b)%nat /\
        (0 <? N.land x 128 = false -> s = b)).
    { intros [H|(w & s & H & Hl & Hs)]; [now left|right]. exists w, s. split; [exact H|]. split; [exact Hl|].
      cbn [read_digits]. destruct (0 <? N.land x 128) eqn:E; [now right|left]. exists [].
      assert (s = b) by auto. subst s. split; [|reflexivity].
      destruct b; cbn [read_digits] in H; rewrite E in H; congruence. }
    revert x v sh. induction b as [|y b IH]; intros x v sh; cbn [read_digits].
    + destruct (0 <? N.land x 128); [now left|right]. do 2 eexists. split; [reflexivity|]. split; [apply Nat.le_refl|auto].
    + destruct (0 <? N.land x 128).
      * destruct (IH y (v + N.shiftl (N.land x 127) sh) (sh + 7)) as [H|(w & s & H & Hl & _)]; [now left|right].
        exists w, s. split; [exact H|]. split; [cbn [length]; lia|discriminate].
      * right. do 2 eexists. split; [reflexivity|]. split; [apply Nat.le_refl|auto].
  - cbn [app read_digits]. destruct (0 <? N.land x 128).
    + destruct (IH y (v + N.shiftl (N.land x 127) sh) (sh + 7)) as [H|(w & s & H & Hl & Hs)]; [now left|right].
      exists w, s. split; [exact H|]. split; [cbn [length]; lia|exact Hs].
    + right. do 2 eexists. split; [reflexivity|]. split; [apply Nat.le_refl|]. left. eexists. split; reflexivity.
Qed.

Lemma integer_cut byte p : In p [0; 5; 6; 7] -> cut_ok (read_integer byte p).
Proof.
  intros Hp a b.
  assert (Hm : exists m, MAX_VALUES p = Ok m).
  { cbn in Hp. destruct Hp as [<-|[<-|[<-|[<-|[]]]]]; eexists; reflexivity. }
  assert (H8 : p <=? 8 = true). { cbn in Hp. destruct Hp as [<-|[<-|[<-|[<-|[]]]]]; reflexivity. }
  destruct Hm as (m & Em). unfold read_integer. rewrite Em. cbn [bind]. rewrite H8. cbn [bind].
  destruct (N.land byte m =? m).
  - destruct a as [|y a]; cbn [app read_next_byte bind].
    + destruct b as [|y b]; cbn [read_next_byte bind]; [now left|].
      destruct (digits_cut [] b y (N.land byte m) 0) as [H|(w & s & H & Hl & _)]; cbn [app] in H; [now left|right].
      exists w, s. split; [exact H|]. split; [cbn [length app] in *; lia|now right].
    + destruct (digits_cut a b y (N.land byte m) 0) as [H|(w & s & H & Hl & Hs)]; [now left|right].
      exists w, s. split; [exact H|]. split; [cbn [length]; lia|exact Hs].
  - right. do 2 eexists. split; [reflexivity|]. split; [apply Nat.le_refl|]. left. eexists. split; reflexivity.
Qed.

(** A literal: as above, or a beginning of the value and nothing left. *)
Lemma literal_cut a b :
  read_literal_string (a ++ b) = Err IndexError \/
  exists v s, read_literal_string (a ++ b) = Ok (v, s) /\ (length v + length s < length (a ++ b))%nat /\
    ((exists a', read_literal_string a = Ok (v, a') /\ s = a' ++ b) \/ read_literal_string a = Err IndexError \/
     exists j, (j < length v)%nat /\ read_literal_string a = Ok (firstn j v, [])).
Proof.
  unfold read_literal_string.
  assert (HL : forall n s, read_integer 0 0 (a ++ b) = Ok (n, s) -> (length s < length (a ++ b))%nat).
  { generalize (a ++ b). intros c n s H. unfold read_integer in H. cbn in H.
    destruct c as [|y c]; cbn [read_next_byte bind] in H; [discriminate|]. cbn [length].
    destruct (digits_cut c [] y 0 0) as [E|(w & s' & E & Hl & _)]; rewrite app_nil_r in *; rewrite H in E; [discriminate|].
    assert (s' = s) by congruence. subst. lia. }
  destruct (integer_cut 0 0 (or_introl eq_refl) a b) as [H|(n & s & H & _ & Hs)].
  - left. rewrite H. reflexivity.
  - right. specialize (HL _ _ H). rewrite H. cbn [bind]. do 2 eexists. split; [reflexivity|].
    rewrite takeN_firstn, dropN_skipn. split.
    { rewrite <- (app_length (firstn _ s)), firstn_skipn. exact HL. }
    destruct Hs as [(a' & Ea & ->)|Ea]; rewrite Ea; cbn [bind]; [|right; now left].
    rewrite takeN_firstn, dropN_skipn. set (k := N.to_nat n).
    rewrite !firstn_app, !skipn_app.
    destruct (Nat.le_gt_cases k (length a')) as [Hk|Hk].
    + left. exists (skipn k a'). replace (k - length a')%nat with 0%nat by lia.
      cbn [firstn skipn]. rewrite app_nil_r. split; reflexivity.
    + rewrite (firstn_all2 a') by lia. rewrite (skipn_all2 a') by lia. cbn [app].
      destruct b as [|y b].
      * left. exists []. rewrite firstn_nil, skipn_nil, app_nil_r. split; reflexivity.
      * right. right. exists (length a'). split.
        { rewrite app_length. destruct (k - length a')%nat eqn:E; [lia|]. cbn [firstn length]. lia. }
        rewrite firstn_app, firstn_all, Nat.sub_diag. cbn [firstn]. rewrite app_nil_r. reflexivity.
Qed.

Lemma literal_nil : read_literal_string [] = Err IndexError.
Proof. reflexivity. Qed.

(** ** One representation *)

Lemma insert_err max e i d x : insert_decoded_header max e i d = Err x -> x = IndexError.
Proof.
  unfold insert_decoded_header. destruct (nthN (d_tbl d) i); [|congruence].
  destruct (ins_evict _ _ _ _ _ _) as [[[sz ix] t] ts]. destruct (_ <=? _)%Z; [|discriminate].
  destruct (_ <=? _)%Z; discriminate.
Qed.

Lemma insert_ok_any max e e' i d d' : insert_decoded_header max e i d = Ok d' ->
  exists d'', insert_decoded_header max e' i d = Ok d''.
Proof.
  unfold insert_decoded_header. destruct (nthN (d_tbl d) i); [|discriminate]. intros _.
  destruct (ins_evict _ _ (entry_len (e_hdr e') - _) _ _ _) as [[[sz ix] t] ts]. destruct (_ <=? _)%Z; [|eauto].
  destruct (_ <=? _)%Z; eauto.
Qed.

(** The name of a literal. *)
Definition the_name (d : decoder) (i : N) (s : str) : res (str * str) :=
  if i =? 0 then read_literal_string s
  else match nthN (d_tbl d) (i - 1) with None => Err IndexError | Some e => Ok (fst (e_hdr e), s) end.

Lemma name_cut d i a b :
  the_name d i (a ++ b) = Err IndexError \/
  exists v s, the_name d i (a ++ b) = Ok (v, s) /\ (length s <= length (a ++ b))%nat /\
    ((exists e, In e (d_tbl d) /\ v = fst (e_hdr e)) \/ (length v + length s < length (a ++ b))%nat) /\
    ((exists a', the_name d i a = Ok (v, a') /\ s = a' ++ b) \/ the_name d i a = Err IndexError \/
     exists j, the_name d i a = Ok (j, [])).
Proof.
  unfold the_name. destruct (i =? 0).
  - destruct (literal_cut a b) as [H|(v & s & H & Hl & Hs)]; [now left|right]. exists v, s.
    split; [exact H|]. split; [lia|]. split; [now right|]. destruct Hs as [Hs|[Hs|(j & _ & Hs)]]; eauto.
  - destruct (nthN (d_tbl d) (i - 1)) as [e|] eqn:E; [right|now left].
    do 2 eexists. split; [reflexivity|]. split; [apply Nat.le_refl|]. split; [|left; eauto].
    left. exists e. split; [|reflexivity]. rewrite nthN_nth in E. eapply nth_error_In, E.
Qed.

(** What one literal representation does after its first octet. *)
Definition lit_rest (max : Z) (d : decoder) (mode : lit_mode) (i : N) (s : str) : res (decoder * list header * str) :=
  let* (name, s) := the_name d i s in
  let* (reference_index, s) :=
    (match mode with SUBSTITUTION => read_integer 0 0 s | _ => Ok (0, s) end) in
  let* (value, s) := read_literal_string s in
  match mode with
  | INCREMENTAL => Ok (append_decoded_header max (new_entry (name, value) true true) d, [(name, value)], s)
  | SUBSTITUTION =>
      let* d := insert_decoded_header max (new_entry (name, value) true true) reference_index d in
      Ok (d, [(name, value)], s)
  | NOT_INDEXED => Ok (d, [(name, value)], s)
  end.

Definition lit_kind (byte : N) : lit_mode * N :=
  if N.land byte 192 =? 0 then (SUBSTITUTION, 6)
  else if N.land byte 224 =? 96 then (NOT_INDEXED, 5) else (INCREMENTAL, 5).

Lemma decode_one_alt max d byte s : decode_one max d byte s =
  if 0 <? N.land byte 128 then
    let* (index, s) := read_integer byte 7 s in
    match nthN (d_tbl d) index with
    | None => Err IndexError
    | Some e =>
        if e_ref e then
          Ok (mkDec (update_nth (N.to_nat index) (set_both false false) (d_tbl d)) (d_size d), [], s)
        else
          Ok (mkDec (update_nth (N.to_nat index) (set_both true true) (d_tbl d)) (d_size d),
              [e_hdr e], s)
    end
  else
    let* (i, s) := read_integer byte (snd (lit_kind byte)) s in lit_rest max d (fst (lit_kind byte)) i s.
Proof.
  unfold decode_one, lit_kind, lit_rest, the_name. destruct (0 <? N.land byte 128); [reflexivity|].
  destruct (N.land byte 192 =? 0); [|destruct (N.land byte 224 =? 96)]; cbn [fst snd];
    (destruct (read_integer byte _ s) as [[i s1]|]; cbn [bind]; [|reflexivity]);
    reflexivity.
Qed.

Lemma kind_prefix byte : In (snd (lit_kind byte)) [0; 5; 6; 7].
Proof.
  unfold lit_kind. destruct (N.land byte 192 =? 0); [|destruct (N.land byte 224 =? 96)]; cbn; tauto.
Qed.

(** The octets of a header that is reported: its name comes from a table
    entry or from the input, its value from a table entry or the input. *)
Definition hlen (h : header) : nat := (length (fst h) + length (snd h))%nat.

Definition room (M : nat) (hs : list header) (used : nat) : Prop :=
  hs = [] \/ exists h, hs = [h] /\ (hlen h <= M + used)%nat.

Lemma mode_cut (mode : lit_mode) a b :
  let r := fun s : str => match mode with SUBSTITUTION => read_integer 0 0 s | _ => Ok (0, s) end in
  r (a ++ b) = Err IndexError \/
  exists v s, r (a ++ b) = Ok (v, s) /\ (length s <= length (a ++ b))%nat /\
    ((exists a', r a = Ok (v, a') /\ s = a' ++ b) \/ r a = Err IndexError).
Proof.
  intros r. destruct mode; unfold r; cbv beta iota.
  - apply (integer_cut 0 0). now left.
  - right. do 2 eexists. split; [reflexivity|]. split; [apply Nat.le_refl|left; eauto].
  - right. do 2 eexists. split; [reflexivity|]. split; [apply Nat.le_refl|left; eauto].
Qed.

Lemma lit_cut max d mode i a b M :
  (forall e, In e (d_tbl d) -> (hlen (e_hdr e) <= M)%nat) ->
  lit_rest max d mode i (a ++ b) = Err IndexError \/
  exists d' hs s, lit_rest max d mode i (a ++ b) = Ok (d', hs, s) /\ (length s <= length (a ++ b))%nat /\
    room M hs (length (a ++ b) - length s) /\
    ((exists a', lit_rest max d mode i a = Ok (d', hs, a') /\ s = a' ++ b) \/
     lit_rest max d mode i a = Err IndexError \/
     exists d'' nm v j, hs = [(nm, v)] /\ (j < length v)%nat /\
       lit_rest max d mode i a = Ok (d'', [(nm, firstn j v)], [])).
Proof.
  intros HM. unfold lit_rest.
  destruct (name_cut d i a b) as [H|(nm & s1 & H & L1 & Hn & Hs)]; rewrite H; cbn [bind]; [now left|].
  (* the reading of the name within [a] *)
  destruct Hs as [(a1 & E1 & ->)|Hs].
  2:{ (* the cut falls before the end of the name: whatever follows raises *)
    assert (Hbad : lit_rest max d mode i a = Err IndexError).
    { unfold lit_rest. destruct Hs as [Hs|(j & Hs)]; rewrite Hs; cbn [bind]; [reflexivity|].
      destruct mode; reflexivity. }
    unfold lit_rest in Hbad. rewrite Hbad.
    destruct (mode_cut mode s1 []) as [Em|(ri & s2 & Em & L2 & _)]; rewrite app_nil_r in *; rewrite Em; cbn [bind]; [now left|].
    destruct (literal_cut s2 []) as [El|(v & s3 & El & L3 & _)]; rewrite app_nil_r in *; rewrite El; cbn [bind]; [now left|].
    assert (HR : room M [(nm, v)] (length (a ++ b) - length s3)).
    { right. exists (nm, v). split; [reflexivity|]. unfold hlen. cbn [fst snd].
      destruct Hn as [(e & He & ->)|Hn]; [specialize (HM e He); unfold hlen in HM|]; lia. }
    destruct mode.
    - destruct (insert_decoded_header max _ ri d) as [d'|x] eqn:Ei; cbn [bind].
      + right. do 3 eexists. split; [reflexivity|]. split; [lia|]. split; [exact HR|]. right. now left.
      + left. now rewrite (insert_err _ _ _ _ _ Ei).
    - right. do 3 eexists. split; [reflexivity|]. split; [lia|]. split; [exact HR|]. right. now left.
    - right. do 3 eexists. split; [reflexivity|]. split; [lia|]. split; [exact HR|]. right. now left. }
  rewrite E1. cbn [bind].
  destruct (mode_cut mode a1 b) as [Em|(ri & s2 & Em & L2 & Hs2)]; cbv beta in Em; rewrite Em; cbn [bind]; [now left|].
  destruct Hs2 as [(a2 & E2 & ->)|E2]; rewrite E2; cbn [bind].
  - destruct (literal_cut a2 b) as [El|(v & s3 & El & L3 & Hs3)]; rewrite El; cbn [bind]; [now left|].
    assert (HR : room M [(nm, v)] (length (a ++ b) - length s3)).
    { right. exists (nm, v). split; [reflexivity|]. unfold hlen. cbn [fst snd].
      destruct Hn as [(e & He & ->)|Hn]; [specialize (HM e He); unfold hlen in HM|]; lia. }
    destruct Hs3 as [(a3 & E3 & ->)|[E3|(j & Hj & E3)]]; rewrite E3; cbn [bind].
    + destruct mode.
      * destruct (insert_decoded_header max _ ri d) as [d'|x] eqn:Ei; cbn [bind].
        -- right. do 3 eexists. split; [reflexivity|]. split; [lia|]. split; [exact HR|]. left. eauto.
        -- left. now rewrite (insert_err _ _ _ _ _ Ei).
      * right. do 3 eexists. split; [reflexivity|]. split; [lia|]. split; [exact HR|]. left. eauto.
      * right. do 3 eexists. split; [reflexivity|]. split; [lia|]. split; [exact HR|]. left. eauto.
    + destruct mode.
      * destruct (insert_decoded_header max _ ri d) as [d'|x] eqn:Ei; cbn [bind].
        -- right. do 3 eexists. split; [reflexivity|]. split; [lia|]. split; [exact HR|]. right. now left.
        -- left. now rewrite (insert_err _ _ _ _ _ Ei).
      * right. do 3 eexists. split; [reflexivity|]. split; [lia|]. split; [exact HR|]. right. now left.
      * right. do 3 eexists. split; [reflexivity|]. split; [lia|]. split; [exact HR|]. right. now left.
    + destruct mode.
      * destruct (insert_decoded_header max (new_entry (nm, v) true true) ri d) as [d'|x] eqn:Ei; cbn [bind].
        -- right. do 3 eexists. split; [reflexivity|]. split; [lia|]. split; [exact HR|]. right. right.
           destruct (insert_ok_any _ _ (new_entry (nm, firstn j v) true true) _ _ _ Ei) as (d2 & Ed).
           exists d2, nm, v, j. split; [reflexivity|]. split; [exact Hj|].
           match goal with |- bind ?X _ = _ => replace X with (Ok d2) by (symmetry; exact Ed) end. reflexivity.
        -- left. now rewrite (insert_err _ _ _ _ _ Ei).
      * right. do 3 eexists. split; [reflexivity|]. split; [lia|]. split; [exact HR|]. right. right.
        do 4 eexists. split; [reflexivity|]. split; [exact Hj|reflexivity].
      * right. do 3 eexists. split; [reflexivity|]. split; [lia|]. split; [exact HR|]. right. right.
        do 4 eexists. split; [reflexivity|]. split; [exact Hj|reflexivity].
  - destruct (literal_cut s2 []) as [El|(v & s3 & El & L3 & _)]; rewrite app_nil_r in *; rewrite El; cbn [bind]; [now left|].
    assert (HR : room M [(nm, v)] (length (a ++ b) - length s3)).
    { right. exists (nm, v). split; [reflexivity|]. unfold hlen. cbn [fst snd].
      destruct Hn as [(e & He & ->)|Hn]; [specialize (HM e He); unfold hlen in HM|]; lia. }
    destruct mode.
    + destruct (insert_decoded_header max _ ri d) as [d'|x] eqn:Ei; cbn [bind].
      * right. do 3 eexists. split; [reflexivity|]. split; [lia|]. split; [exact HR|]. right. now left.
      * left. now rewrite (insert_err _ _ _ _ _ Ei).
    + right. do 3 eexists. split; [reflexivity|]. split; [lia|]. split; [exact HR|]. right. now left.
    + right. do 3 eexists. split; [reflexivity|]. split; [lia|]. split; [exact HR|]. right. now left.
Qed.

Lemma one_cut max d byte a b M :
  (forall e, In e (d_tbl d) -> (hlen (e_hdr e) <= M)%nat) ->
  decode_one max d byte (a ++ b) = Err IndexError \/
  exists d' hs s, decode_one max d byte (a ++ b) = Ok (d', hs, s) /\ (length s <= length (a ++ b))%nat /\
    room M hs (length (a ++ b) - length s) /\
    ((exists a', decode_one max d byte a = Ok (d', hs, a') /\ s = a' ++ b) \/
     decode_one max d byte a = Err IndexError \/
     exists d'' nm v j, hs = [(nm, v)] /\ (j < length v)%nat /\
       decode_one max d byte a = Ok (d'', [(nm, firstn j v)], [])).
Proof.
  intros HM. rewrite !decode_one_alt. destruct (0 <? N.land byte 128).
  - assert (H7 : In 7 [0; 5; 6; 7]) by (cbn; tauto).
    destruct (integer_cut byte 7 H7 a b) as [H|(ix & s & H & L & Hs)]; rewrite H; cbn [bind]; [now left|].
    destruct (nthN (d_tbl d) ix) as [e|] eqn:En; [|now left]. right.
    assert (Hin : In e (d_tbl d)) by (rewrite nthN_nth in En; eapply nth_error_In, En).
    specialize (HM e Hin).
    destruct (e_ref e) eqn:Er; (do 3 eexists; split; [reflexivity|]; split; [exact L|]; split; [|]).
    + now left.
    + destruct Hs as [(a' & Ea & ->)|Ea]; rewrite Ea; cbn [bind]; [|right; now left].
      rewrite En, Er. left. eauto.
    + right. eexists. split; [reflexivity|]. lia.
    + destruct Hs as [(a' & Ea & ->)|Ea]; rewrite Ea; cbn [bind]; [|right; now left].
      rewrite En, Er. left. eauto.
  - destruct (integer_cut byte _ (kind_prefix byte) a b) as [H|(ix & s & H & L & Hs)]; rewrite H; cbn [bind]; [now left|].
    destruct Hs as [(a' & Ea & ->)|Ea]; rewrite Ea; cbn [bind].
    + destruct (lit_cut max d (fst (lit_kind byte)) ix a' b M HM) as [Hl|(d' & hs & s & Hl & Ll & Hr & Hc)]; [now left|right].
      exists d', hs, s. split; [exact Hl|]. split; [lia|]. split; [|exact Hc].
      destruct Hr as [->|(h & -> & Hh)]; [now left|right]. eexists. split; [reflexivity|]. lia.
    + destruct (lit_cut max d (fst (lit_kind byte)) ix s [] M HM) as [Hl|(d' & hs & s' & Hl & Ll & Hr & _)];
        rewrite app_nil_r in *; [now left|right].
      exists d', hs, s'. split; [exact Hl|]. split; [lia|]. split; [|right; now left].
      destruct Hr as [->|(h & -> & Hh)]; [now left|right]. eexists. split; [reflexivity|]. lia.
Qed.

(** ** The loop *)

(** The headers a decoder holds back until the end of the message. *)
Definition kept (d : decoder) : list header :=
  map e_hdr (filter (fun e => e_ref e && negb (e_emit e)) (d_tbl d)).

Lemma loop_cut max : forall f a b d acc g,
  (length (a ++ b) <= f)%nat -> (length a <= g)%nat ->
  match decode_loop f max d acc (a ++ b) with
  | (_, Err x) => x = IndexError
  | (d1, Ok hs) => exists sent : list header, hs = acc ++ sent /\
      match decode_loop g max d acc a with
      | (_, Err x) => x = IndexError
      | (d2, Ok hs2) => exists (n : nat) (cut : list header), hs2 = acc ++ firstn n sent ++ cut /\
          (cut = [] \/ exists nm v j, nth_error sent n = Some (nm, v) /\ (j < length v)%nat /\
             cut = [(nm, firstn j v)])
      end
  end.
Proof.
  induction f as [|f IH]; intros a b d acc g Hf Hg.
  - destruct a; [|cbn in Hf; lia]. destruct b; [|cbn in Hf; lia].
    cbn [decode_loop app]. exists []. rewrite app_nil_r. split; [reflexivity|].
    destruct g; cbn [decode_loop]; exists 0%nat, []; (split; [now rewrite app_nil_r|now left]).
  - destruct a as [|x a].
    + cbn [app]. specialize (IH [] [] d acc 0%nat).
      assert (HE : forall s d acc, (length s <= S f)%nat ->
        match decode_loop (S f) max d acc s with
        | (_, Err x) => x = IndexError
        | (_, Ok hs) => exists sent : list header, hs = acc ++ sent end).
      { clear IH Hf Hg acc d. generalize (S f). clear f. induction n as [|n IHn]; intros s d acc Hs.
        - destruct s; [|cbn in Hs; lia]. cbn. exists []. now rewrite app_nil_r.
        - destruct s as [|y s]; cbn [decode_loop]; [exists []; now rewrite app_nil_r|].
          destruct (one_cut max d y s [] (fold_right Nat.max 0%nat (map (fun e => hlen (e_hdr e)) (d_tbl d))))
            as [H|(d' & hs & s' & H & Hl & _)].
          { intros e He. induction (d_tbl d) as [|z t IHt]; [destruct He|]. cbn [map fold_right].
            destruct He as [->|He]; [lia|]. specialize (IHt He). lia. }
          + rewrite app_nil_r in H. rewrite H. reflexivity.
          + rewrite app_nil_r in *. rewrite H. cbn [length] in Hs.
            specialize (IHn s' d' (acc ++ hs) ltac:(lia)).
            destruct (decode_loop n max d' (acc ++ hs) s') as [d1 [hs1|e]]; [|exact IHn].
            destruct IHn as (sent & ->). exists (hs ++ sent). now rewrite app_assoc. }
      specialize (HE b d acc Hf). destruct (decode_loop (S f) max d acc b) as [d1 [hs|e]]; [|exact HE].
      destruct HE as (sent & ->). exists sent. split; [reflexivity|].
      assert (Hn : decode_loop g max d acc [] = (d, Ok acc)) by (destruct g; reflexivity).
      rewrite Hn. exists 0%nat, []. split; [now rewrite app_nil_r|now left].
    + destruct g as [|g]; [cbn in Hg; lia|]. cbn [app decode_loop].
      destruct (one_cut max d x a b (fold_right Nat.max 0%nat (map (fun e => hlen (e_hdr e)) (d_tbl d))))
        as [H|(d' & hs & s & H & Hl & _ & Hc)].
      { intros e He. induction (d_tbl d) as [|z t IHt]; [destruct He|]. cbn [map fold_right].
        destruct He as [->|He]; [lia|]. specialize (IHt He). lia. }
      * rewrite H. reflexivity.
      * rewrite H. cbn [app length] in Hf, Hg.
        destruct Hc as [(a' & Ea & ->)|Hc].
        -- rewrite Ea.
           destruct (one_cut max d x a [] (fold_right Nat.max 0%nat (map (fun e => hlen (e_hdr e)) (d_tbl d))))
             as [H0|(d0 & hs0 & s0 & H0 & Hl0 & _)].
           { intros e He. induction (d_tbl d) as [|z t IHt]; [destruct He|]. cbn [map fold_right].
             destruct He as [->|He]; [lia|]. specialize (IHt He). lia. }
           { rewrite app_nil_r in H0. congruence. }
           rewrite app_nil_r in *. assert (s0 = a') by congruence. subst s0.
           specialize (IH a' b d' (acc ++ hs) g ltac:(lia) ltac:(lia)).
           destruct (decode_loop f max d' (acc ++ hs) (a' ++ b)) as [d1 [hs1|e]]; [|exact IH].
           destruct IH as (sent & -> & IH). exists (hs ++ sent). split; [now rewrite app_assoc|].
           destruct (decode_loop g max d' (acc ++ hs) a') as [d2 [hs2|e]]; [|exact IH].
           destruct IH as (n & cut & -> & Hcut). exists (length hs + n)%nat, cut.
           rewrite firstn_app_2. split; [now rewrite !app_assoc|].
           destruct Hcut as [->|(nm & v & j & Hn & Hj & ->)]; [now left|right].
           exists nm, v, j. split; [|auto]. rewrite nth_error_app2 by lia.
           replace (length hs + n - length hs)%nat with n by lia. exact Hn.
        -- specialize (IH s [] d' (acc ++ hs) (length s)). rewrite app_nil_r in IH.
           specialize (IH ltac:(lia) ltac:(lia)).
           destruct (decode_loop f max d' (acc ++ hs) s) as [d1 [hs1|e]]; [|exact IH].
           destruct IH as (sent & -> & _). exists (hs ++ sent). split; [now rewrite app_assoc|].
           destruct Hc as [Ea|(d2 & nm & v & j & -> & Hj & Ea)]; rewrite Ea; [reflexivity|].
           assert (Hn : decode_loop g max d2 (acc ++ [(nm, firstn j v)]) [] = (d2, Ok (acc ++ [(nm, firstn j v)])))
             by (destruct g; reflexivity).
           rewrite Hn. exists 0%nat, [(nm, firstn j v)]. split; [reflexivity|]. right.
           exists nm, v, j. split; [reflexivity|]. auto.
Qed.

(** How much one message can make the decoder report: every octet gives at
    most one header, every header has at most [M] octets from the table
    besides those in the message. *)
Definition total (hs : list header) : nat := fold_right (fun h n => (hlen h + n)%nat) 0%nat hs.

Lemma total_app a b : total (a ++ b) = (total a + total b)%nat.
Proof. induction a as [|h a IH]; cbn [app total fold_right] in *; [reflexivity|]. fold (total (a ++ b)) (total a). lia. Qed.

Lemma acct_entry M d e : (0 <= M)%Z -> acct M d -> In e (d_tbl d) -> (hlen (e_hdr e) <= Z.to_nat M)%nat.
Proof.
  intros H0 [E L] He. rewrite E in L.
  assert (entry_len (e_hdr e) <= sum_len (hdrs (d_tbl d)))%Z.
  { clear -He. induction (d_tbl d) as [|z t IH]; [destruct He|]. cbn [hdrs map sum_len fold_right].
    pose proof (entry_len_pos (e_hdr z)). pose proof (sum_len_nonneg (hdrs t)).
    unfold hdrs, sum_len in *. destruct He as [->|He]; [lia|]. specialize (IH He). lia. }
  unfold entry_len, hlen in *. lia.
Qed.

Lemma loop_work max M : (max <= M)%Z -> (0 <= M)%Z -> forall f d acc s d' hs, acct M d ->
  decode_loop f max d acc s = (d', Ok hs) ->
  acct M d' /\ (length hs <= length acc + length s)%nat /\
  (total hs <= total acc + length s * Z.to_nat M + length s)%nat.
Proof.
  intros HM H0. induction f as [|f IH]; intros d acc s d' hs HA H.
  - destruct s; cbn [decode_loop] in H; [|discriminate].
    assert (d' = d /\ hs = acc) as [-> ->] by (split; congruence). split; [exact HA|]. cbn [length]. lia.
  - destruct s as [|x s]; cbn [decode_loop] in H.
    { assert (d' = d /\ hs = acc) as [-> ->] by (split; congruence). split; [exact HA|]. cbn [length]. lia. }
    destruct (decode_one max d x s) as [[[d1 h1] s1]|e] eqn:E1; [|discriminate].
    destruct (one_cut max d x s [] (Z.to_nat M) (fun e He => acct_entry M d e H0 HA He))
      as [C|(d2 & h2 & s2 & C & Cl & Cr & _)]; rewrite app_nil_r in *; rewrite E1 in C; [discriminate|].
    assert (d2 = d1 /\ h2 = h1 /\ s2 = s1) as (-> & -> & ->) by (repeat split; congruence).
    pose proof (decode_one_acct max M d x s d1 h1 s1 HM H0 HA E1) as HA1.
    destruct (IH _ _ _ _ _ HA1 H) as (HA' & IL & IT). split; [exact HA'|].
    rewrite app_length in IL. rewrite total_app in IT. cbn [length].
    destruct Cr as [->|(h & -> & Hh)]; cbn [length total fold_right] in *; nia.
Qed.

(** ** Substitution: which entries go, and where the new one lands *)

(** Octets left after dropping the oldest [k] entries, not counting the
    entry at position [idx] (of [rsize] octets) if it is still there. *)
Definition left_over (rsize : Z) (t : list entry) (idx : Z) (k : nat) : Z :=
  (sum_len (hdrs (skipn k t)) - if (Z.of_nat k <=? idx)%Z then rsize else 0)%Z.

Lemma ins_evict_k max rsize elen t : forall size idx ts,
  ts = sum_len (hdrs t) ->
  size = (if 0 <=? idx then elen - rsize else elen)%Z ->
  exists k, (k <= length t)%nat /\
    (forall j, (j < k)%nat -> (left_over rsize t idx j + elen > max)%Z) /\
    ((k < length t)%nat -> (left_over rsize t idx k + elen <= max)%Z) /\
    ins_evict max rsize size idx t ts =
      ((if Z.of_nat k <=? idx then elen - rsize else elen)%Z, (idx - Z.of_nat k)%Z, skipn k t, sum_len (hdrs (skipn k t))).
Proof.
  induction t as [|e t IH]; intros size idx ts -> ->; cbn [ins_evict].
  - exists 0%nat. split; [lia|]. split; [intros; lia|]. split; [cbn; lia|].
    cbn [skipn hdrs map sum_len fold_right]. replace (idx - Z.of_nat 0)%Z with idx by lia. reflexivity.
  - assert (E0 : (sum_len (hdrs (e :: t)) + (if 0 <=? idx then elen - rsize else elen))%Z =
      (left_over rsize (e :: t) idx 0 + elen)%Z).
    { unfold left_over. cbn [skipn Z.of_nat]. destruct (0 <=? idx)%Z; lia. }
    destruct (sum_len (hdrs (e :: t)) + (if 0 <=? idx then elen - rsize else elen) >? max)%Z eqn:E.
    + rewrite Z.gtb_lt in E.
      assert (Es : (if idx - 1 =? -1 then (if 0 <=? idx then elen - rsize else elen) + rsize
                    else if 0 <=? idx then elen - rsize else elen)%Z =
                   (if 0 <=? idx - 1 then elen - rsize else elen)%Z).
      { destruct (Z.eqb_spec (idx - 1) (-1)); destruct (Z.leb_spec 0 idx); destruct (Z.leb_spec 0 (idx - 1)); lia. }
      rewrite Es.
      assert (Et : (sum_len (hdrs (e :: t)) - entry_len (e_hdr e))%Z = sum_len (hdrs t)).
      { unfold hdrs, sum_len. cbn [map fold_right]. lia. }
      rewrite Et.
      destruct (IH _ (idx - 1)%Z _ eq_refl eq_refl) as (k & K1 & K2 & K3 & K4).
      assert (EL : forall j, left_over rsize (e :: t) idx (S j) = left_over rsize t (idx - 1) j).
      { intros j. unfold left_over. cbn [skipn].
        destruct (Z.leb_spec (Z.of_nat (S j)) idx); destruct (Z.leb_spec (Z.of_nat j) (idx - 1)); lia. }
      exists (S k). split; [cbn [length]; lia|]. split; [|split].
      * intros [|j] Hj; [lia|]. rewrite EL. apply K2. lia.
      * intros Hk. rewrite EL. apply K3. cbn [length] in Hk. lia.
      * rewrite K4. cbn [skipn].
        replace (idx - 1 - Z.of_nat k)%Z with (idx - Z.of_nat (S k))%Z by lia.
        destruct (Z.leb_spec (Z.of_nat k) (idx - 1)); destruct (Z.leb_spec (Z.of_nat (S k)) idx); try lia; reflexivity.
    + exists 0%nat. split; [lia|]. split; [intros; lia|]. split.
      * intros _. rewrite <- E0. rewrite Z.gtb_ltb in E. apply Z.ltb_ge in E. lia.
      * cbn [skipn Z.of_nat]. replace (idx - 0)%Z with idx by lia. reflexivity.
Qed.

Lemma skipn_hdrs k t : hdrs (skipn k t) = skipn k (hdrs t).
Proof. unfold hdrs. revert t. induction k as [|k IH]; intros [|e t]; cbn [skipn map]; auto. Qed.
Lemma firstn_hdrs k t : hdrs (firstn k t) = firstn k (hdrs t).
Proof. unfold hdrs. revert t. induction k as [|k IH]; intros [|e t]; cbn [firstn map]; auto. f_equal. apply IH. Qed.

(** The entries at positions [k] and above, without position [i]. *)
Definition others (t : list header) (i k : nat) : list header := skipn k (firstn i t) ++ skipn (Nat.max k (S i)) t.

Lemma left_others t i old k : nth_error t i = Some old ->
  left_over (entry_len (e_hdr old)) t (Z.of_nat i) k = octets_of_headers (others (hdrs t) i k).
Proof.
  intros Hn. rewrite octets_headers_sum. unfold left_over, others.
  destruct (nth_error_split _ _ Hn) as (a & b & -> & La).
  unfold hdrs at 2 3. rewrite map_app. cbn [map].
  assert (Lm : length (map e_hdr a) = i) by now rewrite map_length.
  rewrite firstn_app, Lm, Nat.sub_diag. cbn [firstn]. rewrite app_nil_r, firstn_all2 by lia.
  destruct (Z.leb_spec (Z.of_nat k) (Z.of_nat i)) as [Hk|Hk].
  - rewrite Nat.max_r by lia. rewrite (skipn_app (S i)), Lm.
    rewrite (skipn_all2 (map e_hdr a) (n := S i)) by lia. replace (S i - i)%nat with 1%nat by lia. cbn [app skipn].
    rewrite skipn_hdrs. unfold hdrs. rewrite map_app. cbn [map].
    rewrite skipn_app, Lm. replace (k - i)%nat with 0%nat by lia. cbn [skipn].
    rewrite !sum_len_app. unfold sum_len at 2. cbn [fold_right]. fold (sum_len (map e_hdr b)). lia.
  - rewrite Nat.max_l by lia. rewrite (skipn_all2 (map e_hdr a)) by lia. cbn [app].
    rewrite skipn_hdrs. unfold hdrs. rewrite map_app. cbn [map]. lia.
Qed.

(** [new] put in the place of position [i]. *)
Definition replaced (t : list header) (i : nat) (new : header) : list header := firstn i t ++ new :: skipn (S i) t.

Lemma hdrs_replace t i e : (i < length t)%nat ->
  hdrs (update_nth i (fun _ => e) t) = replaced (hdrs t) i (e_hdr e).
Proof.
  unfold hdrs, replaced. revert i. induction t as [|x t IH]; intros i Hi; [cbn in Hi; lia|].
  destruct i as [|i]; cbn [update_nth map firstn skipn app]; [reflexivity|].
  f_equal. apply IH. cbn [length] in Hi. lia.
Qed.

Lemma hdrs_length t : length (hdrs t) = length t. Proof. apply map_length. Qed.

Lemma substitute_spec max e i d old : acct max d ->
  nth_error (d_tbl d) i = Some old ->
  let t := hdrs (d_tbl d) in
  let new := e_hdr e in
  exists d' k, insert_decoded_header max e (N.of_nat i) d = Ok d' /\ (k <= length t)%nat /\
    (forall j, (j < k)%nat -> (octets_of_headers (new :: others t i j) > max)%Z) /\
    ((k < length t)%nat -> (octets_of_headers (new :: others t i k) <= max)%Z) /\
    hdrs (d_tbl d') =
      if (max <? octets_of_headers [new])%Z then []
      else if (k <=? i)%nat then replaced (skipn k t) (i - k) new
      else let rest := skipn k t in
           let p := (length rest - (k - i))%nat in firstn p rest ++ new :: skipn p rest.
Proof.
  intros [Hs Hd] Hn t new. unfold insert_decoded_header. rewrite nthN_nth, Nat2N.id, Hn.
  assert (Hi : (i < length (d_tbl d))%nat) by (apply nth_error_Some; congruence).
  destruct (ins_evict_k max (entry_len (e_hdr old)) (entry_len (e_hdr e)) (d_tbl d)
    (entry_len (e_hdr e) - entry_len (e_hdr old)) (Z.of_N (N.of_nat i)) (d_size d) Hs) as (k & K1 & K2 & K3 & K4).
  { destruct (Z.leb_spec 0 (Z.of_N (N.of_nat i))); lia. }
  rewrite K4. rewrite nat_N_Z in *.
  assert (EO : forall j, (left_over (entry_len (e_hdr old)) (d_tbl d) (Z.of_nat i) j + entry_len (e_hdr e))%Z =
     octets_of_headers (new :: others t i j)).
  { intros j. rewrite (left_others _ _ _ _ Hn). rewrite !octets_headers_sum. unfold sum_len. cbn [fold_right].
    fold (sum_len (others t i j)). unfold new, t, sum_len. lia. }
  assert (EN : octets_of_headers [new] = entry_len (e_hdr e)).
  { rewrite octets_headers_sum. unfold sum_len. cbn [fold_right]. unfold new. lia. }
  assert (Hnn : forall j, (octets_of_headers (new :: others t i j) >= octets_of_headers [new])%Z).
  { intros j. rewrite !octets_headers_sum. unfold sum_len. cbn [fold_right]. fold (sum_len (others t i j)).
    pose proof (sum_len_nonneg (others t i j)). unfold sum_len in *. lia. }
  assert (EF : (sum_len (hdrs (skipn k (d_tbl d))) +
     (if Z.of_nat k <=? Z.of_nat i then entry_len (e_hdr e) - entry_len (e_hdr old) else entry_len (e_hdr e)))%Z =
     octets_of_headers (new :: others t i k)).
  { rewrite <- EO. unfold left_over. destruct (Z.of_nat k <=? Z.of_nat i)%Z; lia. }
  rewrite EF.
  assert (Hcond : forall j, (j < k)%nat -> (octets_of_headers (new :: others t i j) > max)%Z).
  { intros j Hj. rewrite <- EO. now apply K2. }
  assert (Hk : (k < length t)%nat -> (octets_of_headers (new :: others t i k) <= max)%Z).
  { intros Hk. rewrite <- EO. apply K3. unfold t in Hk. now rewrite hdrs_length in Hk. }
  assert (Hkl : (k <= length t)%nat) by (unfold t; now rewrite hdrs_length).
  assert (Hkall : k = length t -> others t i k = []).
  { intros ->. unfold others. rewrite skipn_all2 by (rewrite firstn_length; lia). rewrite skipn_all2 by lia. reflexivity. }
  destruct (Z.leb_spec (octets_of_headers (new :: others t i k)) max) as [Hle|Hgt].
  - assert (Hb : (max <? octets_of_headers [new])%Z = false) by (apply Z.ltb_ge; specialize (Hnn k); lia).
    rewrite Hb. destruct (Z.leb_spec 0 (Z.of_nat i - Z.of_nat k)) as [Hge|Hlt].
    + eexists; exists k; split; [reflexivity|]. split; [exact Hkl|]. split; [exact Hcond|]. split; [exact Hk|].
      cbn [d_tbl]. destruct (Nat.leb_spec k i); [|lia].
      replace (Z.to_nat (Z.of_nat i - Z.of_nat k)) with (i - k)%nat by lia.
      rewrite hdrs_replace by (rewrite skipn_length; lia). now rewrite skipn_hdrs.
    + eexists; exists k; split; [reflexivity|]. split; [exact Hkl|]. split; [exact Hcond|]. split; [exact Hk|].
      cbn [d_tbl]. destruct (Nat.leb_spec k i); [lia|]. cbv zeta. unfold py_insert.
      destruct (Z.ltb_spec (Z.of_nat i - Z.of_nat k) 0); [|lia].
      assert (Lr : length (skipn k (d_tbl d)) = length (skipn k t)).
      { unfold t. rewrite <- skipn_hdrs, hdrs_length. reflexivity. }
      rewrite Lr.
      replace (Z.to_nat (Z.max 0 (Z.of_nat i - Z.of_nat k + Z.of_nat (length (skipn k t)))))
        with (length (skipn k t) - (k - i))%nat by lia.
      unfold hdrs at 1. rewrite map_app. cbn [map]. fold (hdrs (firstn (length (skipn k t) - (k - i)) (skipn k (d_tbl d)))).
      fold (hdrs (skipn (length (skipn k t) - (k - i)) (skipn k (d_tbl d)))).
      rewrite firstn_hdrs, !skipn_hdrs. reflexivity.
  - eexists; exists k; split; [reflexivity|]. split; [exact Hkl|]. split; [exact Hcond|]. split; [exact Hk|].
    cbn [d_tbl].
    assert (k = length t) by (destruct (Nat.eq_dec k (length t)); [assumption|]; specialize (Hk ltac:(lia)); lia).
    rewrite (Hkall H) in Hgt. apply Z.ltb_lt in Hgt. rewrite Hgt.
    rewrite skipn_all2; [reflexivity|]. rewrite H. unfold t. rewrite hdrs_length. lia.
Qed.
