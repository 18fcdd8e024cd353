(** * http2 codec: the decoder follows the encoder. *)
From Coq Require Import String List NArith ZArith Bool Lia ZifyN Permutation.
From Verif Require Import PyBase NBits HTTP2_Model HTTP2_Int.
Import ListNotations.
Open Scope N_scope.
Open Scope py_scope.

Definition hdrs (t : list entry) : list header := map e_hdr t.
Definition view (e : entry) : header * bool := (e_hdr e, e_ref e).
Definition Rel (c : encoder) (d : decoder) : Prop :=
  map view (c_tbl c) = map view (d_tbl d) /\ c_size c = d_size d.

Lemma header_eqb_spec a b : reflect (a = b) (header_eqb a b).
Proof.
  destruct a as [a1 a2], b as [b1 b2]. unfold header_eqb; simpl.
  destruct (str_eqb_spec a1 b1), (str_eqb_spec a2 b2); simpl; constructor; congruence.
Qed.

Lemma view_hdrs t1 t2 : map view t1 = map view t2 -> hdrs t1 = hdrs t2.
Proof.
  intros H. unfold hdrs. assert (E : map fst (map view t1) = map fst (map view t2)) by now rewrite H.
  now rewrite !map_map in E.
Qed.

(** ** Reading functions only consume input *)

Lemma read_digits_len b v sh s x s' : read_digits b v sh s = Ok (x, s') -> (length s' <= length s)%nat.
Proof.
  revert b v sh. induction s as [|c s IH]; intros b v sh; simpl.
  - destruct (0 <? N.land b 128); intros H; inv_ok. simpl; lia.
  - destruct (0 <? N.land b 128); intros H.
    + apply IH in H. lia.
    + inv_ok. simpl; lia.
Qed.

Lemma read_integer_len b p s x s' : read_integer b p s = Ok (x, s') -> (length s' <= length s)%nat.
Proof.
  unfold read_integer. intros H. inv_ok.
  assert (Hl : (length s0 <= length s)%nat).
  { destruct (p <=? 8); inv_ok; auto.
    unfold read_next_byte in *. destruct s; inv_ok. simpl; lia. }
  destruct (n =? x0); inv_ok; auto.
  unfold read_next_byte in *. destruct s0; inv_ok. apply read_digits_len in H. simpl in *; lia.
Qed.

Lemma dropN_len {A} n (l : list A) : (length (dropN n l) <= length l)%nat.
Proof. rewrite dropN_skipn, skipn_length. lia. Qed.

Lemma read_literal_len s v s' : read_literal_string s = Ok (v, s') -> (length s' <= length s)%nat.
Proof.
  unfold read_literal_string. intros H. inv_ok.
  apply read_integer_len in H0. match goal with |- context [dropN ?n ?l] => pose proof (dropN_len n l) end. lia.
Qed.

Lemma decode_one_len max d b s d' hs s' : decode_one max d b s = Ok (d', hs, s') ->
  (length s' <= length s)%nat.
Proof.
  unfold decode_one. destruct (0 <? N.land b 128).
  - intros H. inv_ok. apply read_integer_len in H0.
    destruct (nthN (d_tbl d) n); [|discriminate]. destruct (e_ref e); inv_ok; auto.
  - match goal with |- bind ?m _ = _ -> _ => destruct m as [[[mode ni] s1]|] eqn:E1 end;
      cbn [bind]; [|discriminate].
    match goal with |- bind ?m _ = _ -> _ => destruct m as [[name s2]|] eqn:E2 end;
      cbn [bind]; [|discriminate].
    match goal with |- bind ?m _ = _ -> _ => destruct m as [[ri s3]|] eqn:E3 end;
      cbn [bind]; [|discriminate].
    match goal with |- bind ?m _ = _ -> _ => destruct m as [[v s4]|] eqn:E4 end;
      cbn [bind]; [|discriminate].
    assert (H1' : (length s1 <= length s)%nat).
    { destruct (N.land b 192 =? 0); [|destruct (N.land b 224 =? 96)];
        apply bind_ok in E1 as ([x y] & E1 & E1'); injection E1' as <- <- <-;
        now apply read_integer_len in E1. }
    assert (H2' : (length s2 <= length s1)%nat).
    { destruct (ni =? 0); [now apply read_literal_len in E2|].
      destruct (nthN _ _); [injection E2 as <- <-|discriminate]; auto. }
    assert (H3' : (length s3 <= length s2)%nat).
    { destruct mode; [now apply read_integer_len in E3| |]; injection E3 as <- <-; auto. }
    apply read_literal_len in E4.
    intros H. destruct mode.
    + apply bind_ok in H as (x & _ & H). injection H as <- <- <-. lia.
    + injection H as <- <- <-. lia.
    + injection H as <- <- <-. lia.
Qed.

Lemma decode_loop_fuel max f : forall d acc s, (length s <= f)%nat ->
  decode_loop f max d acc s = decode_loop (length s) max d acc s.
Proof.
  induction f as [f IH] using lt_wf_ind. intros d acc s Hf.
  destruct s as [|b s]; [destruct f; reflexivity|].
  destruct f as [|f]; [simpl in Hf; lia|]. cbn [decode_loop length].
  destruct (decode_one max d b s) as [[[d' hs] s']|e] eqn:E; [|reflexivity].
  apply decode_one_len in E. simpl in Hf.
  rewrite (IH f) by lia. symmetry. destruct (Nat.eq_dec (length s) f) as [->|].
  - apply IH; lia.
  - apply IH; lia.
Qed.

(** Decoding the rest of a stream, with enough fuel. *)
Definition dec (max : Z) (d : decoder) (acc : list header) (s : str) :=
  decode_loop (length s) max d acc s.

Lemma dec_step max d acc b s d' hs s' :
  decode_one max d b s = Ok (d', hs, s') ->
  dec max d acc (b :: s) = dec max d' (acc ++ hs) s'.
Proof.
  intros E. unfold dec. cbn [length decode_loop]. rewrite E.
  apply decode_loop_fuel. now apply decode_one_len in E.
Qed.

(** ** The two kinds of instructions the encoder writes *)

Lemma land_flag_high b : 128 <= b < 256 -> (0 <? N.land b 128) = true.
Proof.
  intros H. replace b with (128 + (b - 128)) by lia. now rewrite land128_high by lia.
Qed.

Lemma land_flag_low b : b < 128 -> (0 <? N.land b 128) = false.
Proof. intros H. now rewrite land128_low. Qed.

Lemma write_toggle i : exists b bs, write_integer 128 7 i = Ok (b :: bs) /\ 128 <= b < 256 /\
  is_bytes (b :: bs) /\ forall rest, read_integer b 7 (bs ++ rest) = Ok (i, rest).
Proof.
  destruct (write_read_integer 7 128 i) as (bs & E & Hb & _ & Hf & R); [lia|reflexivity|reflexivity|].
  destruct (Hf ltac:(lia)) as (b & bs' & -> & Hrange). change (N.ones 7) with 127 in Hrange.
  exists b, bs'. split; [exact E|]. split; [lia|]. split; [exact Hb|]. intros rest.
  specialize (R rest). unfold read_int_at in R. exact R.
Qed.

Definition flip (e : entry) : entry := if e_ref e then set_both false false e else set_both true true e.

Lemma dec_toggle max d acc i e bs rest :
  nth_error (d_tbl d) i = Some e ->
  write_integer 128 7 (N.of_nat i) = Ok bs ->
  dec max d acc (bs ++ rest) =
  dec max (mkDec (update_nth i flip (d_tbl d)) (d_size d))
      (acc ++ (if e_ref e then [] else [e_hdr e])) rest.
Proof.
  intros Hn Hw. destruct (write_toggle (N.of_nat i)) as (b & bs' & E & Hb & _ & R).
  rewrite E in Hw. injection Hw as <-. cbn [app].
  apply dec_step with (s' := rest). unfold decode_one. rewrite land_flag_high by lia.
  rewrite R. cbn [bind]. rewrite nthN_nth, Nat2N.id, Hn.
  assert (U : update_nth i flip (d_tbl d) =
              update_nth i (if e_ref e then set_both false false else set_both true true) (d_tbl d)).
  { clear -Hn. revert i Hn. induction (d_tbl d) as [|x l IH]; intros i Hn; [destruct i; discriminate|].
    destruct i; cbn in *.
    - injection Hn as ->. unfold flip. destruct (e_ref e); reflexivity.
    - f_equal. now apply IH. }
  rewrite U. destruct (e_ref e); reflexivity.
Qed.

Lemma find_header_name_some h t i : find_header_name h t = Some i ->
  exists e, nth_error t i = Some e /\ fst (e_hdr e) = fst h.
Proof.
  revert i. induction t as [|x t IH]; intros i; simpl; [discriminate|].
  destruct (str_eqb_spec (fst h) (fst (e_hdr x))) as [E|E].
  - intros H; injection H as <-. exists x. simpl; auto.
  - destruct (find_header_name h t); simpl; [|discriminate].
    intros H; injection H as <-. now apply IH.
Qed.

Lemma find_header_name_hdrs h t1 t2 : hdrs t1 = hdrs t2 -> find_header_name h t1 = find_header_name h t2.
Proof.
  revert t2. induction t1 as [|x t1 IH]; intros [|y t2] H; try discriminate; [reflexivity|].
  simpl in *. injection H as H1 H2. rewrite H1. now rewrite (IH t2 H2).
Qed.

Lemma find_header_hdrs h t1 t2 : hdrs t1 = hdrs t2 -> find_header h t1 = find_header h t2.
Proof.
  revert t2. induction t1 as [|x t1 IH]; intros [|y t2] H; try discriminate; [reflexivity|].
  simpl in *. injection H as H1 H2. rewrite H1. now rewrite (IH t2 H2).
Qed.

Lemma find_header_some h t i : find_header h t = Some i ->
  exists e, nth_error t i = Some e /\ e_hdr e = h.
Proof.
  revert i. induction t as [|x t IH]; intros i; simpl; [discriminate|].
  destruct (header_eqb_spec h (e_hdr x)) as [E|E].
  - intros H; injection H as <-. exists x. simpl; auto.
  - destruct (find_header h t); simpl; [|discriminate].
    intros H; injection H as <-. now apply IH.
Qed.

Lemma find_header_none h t : find_header h t = None <-> ~ In h (hdrs t).
Proof.
  induction t as [|x t IH]; simpl; [tauto|].
  destruct (header_eqb_spec h (e_hdr x)) as [E|E].
  - split; [discriminate|]. intros H. exfalso. apply H. auto.
  - destruct (find_header h t); simpl.
    + split; [discriminate|]. intros H. exfalso. apply H. right.
      destruct (in_dec (fun a b => Bool.reflect_dec _ _ (header_eqb_spec a b)) h (hdrs t)); auto.
      apply IH in n0. discriminate.
    + split; auto. intros _ [H|H]; [now apply E|]. now apply IH.
Qed.

Definition lit_byte (inc : bool) : N := if inc then 64 else 96.

Lemma flags_literal b inc : lit_byte inc <= b <= lit_byte inc + 31 ->
  (0 <? N.land b 128) = false /\ (N.land b 192 =? 0) = false /\
  (N.land b 224 =? 96) = negb inc.
Proof.
  intros H. set (l := map N.of_nat (seq (N.to_nat (lit_byte inc)) 32)).
  assert (Hin : In b l).
  { unfold l. apply in_map_iff. exists (N.to_nat b). split; [lia|]. apply in_seq. destruct inc; simpl in *; lia. }
  assert (Hall : forallb (fun b => negb (0 <? N.land b 128) && negb (N.land b 192 =? 0) &&
                     Bool.eqb (N.land b 224 =? 96) (negb inc)) l = true) by (destruct inc; reflexivity).
  rewrite forallb_forall in Hall. specialize (Hall b Hin).
  apply andb_prop in Hall as [Ha Hc]. apply andb_prop in Ha as [Ha Hb].
  apply negb_true_iff in Ha, Hb. apply eqb_prop in Hc. auto.
Qed.

Lemma dec_literal max d acc inc h t bs rest :
  hdrs t = hdrs (d_tbl d) ->
  write_literal (lit_byte inc) h t = Ok bs ->
  dec max d acc (bs ++ rest) =
  dec max (if inc then append_decoded_header max (new_entry h true true) d else d) (acc ++ [h]) rest.
Proof.
  intros Ht Hw. unfold write_literal in Hw.
  rewrite (find_header_name_hdrs h t _ Ht) in Hw.
  set (ni := find_header_name h (d_tbl d)) in *.
  destruct (write_read_integer 5 (lit_byte inc) (name_code ni)) as (b0 & E0 & _ & _ & Hf & R0);
    [lia|destruct inc; reflexivity|destruct inc; reflexivity|].
  destruct (Hf ltac:(lia)) as (b & b0' & -> & Hr). change (N.ones 5) with 31 in Hr.
  rewrite E0 in Hw. cbn [bind] in Hw.
  destruct (write_read_literal (snd h)) as (bv & Ev & _ & Rv). rewrite Ev in Hw.
  assert (Hname : exists bn, (match ni with None => write_literal_string (fst h) | Some _ => Ok [] end) = Ok bn /\
     forall s, (if name_code ni =? 0 then read_literal_string (bn ++ s)
       else match nthN (d_tbl d) (name_code ni - 1) with
            | None => Err IndexError
            | Some e => Ok (fst (e_hdr e), bn ++ s)
            end) = Ok (fst h, s)).
  { destruct ni as [i|] eqn:En.
    - exists []. split; [reflexivity|]. intros s. unfold name_code.
      destruct (N.eqb_spec (N.of_nat i + 1) 0); [lia|].
      replace (N.of_nat i + 1 - 1) with (N.of_nat i) by lia.
      apply find_header_name_some in En as (e & En & Ef). rewrite nthN_nth, Nat2N.id, En, Ef. reflexivity.
    - destruct (write_read_literal (fst h)) as (bn & En' & _ & Rn). exists bn. split; [exact En'|].
      intros s. cbn. apply Rn. }
  destruct Hname as (bn & En & Rn). rewrite En in Hw. cbn [bind] in Hw. injection Hw as <-.
  cbn [app]. apply dec_step with (s' := rest).
  unfold decode_one. destruct (flags_literal b inc ltac:(lia)) as (F1 & F2 & F3).
  rewrite F1, F2, F3. specialize (R0 (bn ++ bv ++ rest)).
  unfold read_int_at in R0. cbn [N.eqb read_next_byte bind app] in R0.
  rewrite <- !app_assoc.
  destruct inc; cbn [negb]; rewrite R0; cbn [bind]; rewrite Rn; cbn [bind];
    rewrite Rv; cbn [bind]; destruct h; reflexivity.
Qed.

(** ** The decoder's reaction to one encoded header *)

Definition is_path (h : header) : bool := str_eqb (fst h) (lit ":path").

Definition dstep (max : Z) (h : header) (d : decoder) : decoder :=
  match find_header h (d_tbl d) with
  | Some i => mkDec (update_nth i (set_both true true) (d_tbl d)) (d_size d)
  | None => if is_path h then d else append_decoded_header max (new_entry h true true) d
  end.

Lemma update_nth_map {A B} (g : A -> B) f f' i l :
  (forall x, g (f x) = f' (g x)) -> map g (update_nth i f l) = update_nth i f' (map g l).
Proof.
  intros H. revert i. induction l as [|x l IH]; intros [|i]; simpl; auto; rewrite ?H, ?IH; auto.
Qed.

Lemma update_nth_ext {A} (f f' : A -> A) i l x :
  nth_error l i = Some x -> f x = f' x -> update_nth i f l = update_nth i f' l.
Proof.
  revert i. induction l as [|y l IH]; intros [|i]; simpl; auto; intros H E.
  - injection H as ->. now rewrite E.
  - f_equal. eapply IH; eauto.
Qed.

Lemma update_nth_twice {A} (f g : A -> A) i l :
  update_nth i g (update_nth i f l) = update_nth i (fun x => g (f x)) l.
Proof. revert i. induction l as [|y l IH]; intros [|i]; simpl; auto. now rewrite IH. Qed.

Lemma nth_error_update_nth {A} (f : A -> A) i l x :
  nth_error l i = Some x -> nth_error (update_nth i f l) i = Some (f x).
Proof.
  revert i. induction l as [|y l IH]; intros [|i]; simpl; try discriminate; intros H.
  - now injection H as ->. - auto.
Qed.

Lemma evict_rel max size t1 : forall t2 ts,
  map view t1 = map view t2 ->
  map view (fst (enc_evict max size t1 ts)) = map view (fst (dec_evict max size t2 ts)) /\
  snd (enc_evict max size t1 ts) = snd (dec_evict max size t2 ts).
Proof.
  induction t1 as [|x t1 IH]; intros [|y t2] ts H; try discriminate; [split; reflexivity|].
  assert (E : e_hdr x = e_hdr y) by (unfold view in H; simpl in H; congruence).
  simpl. rewrite E. destruct (ts + size >? max)%Z.
  - apply IH. simpl in H. congruence.
  - auto.
Qed.

Lemma append_rel max h c d : Rel c d ->
  Rel (append_encoded_header max (new_entry h true true) c)
      (append_decoded_header max (new_entry h true true) d).
Proof.
  intros [Ht Hs]. unfold append_encoded_header, append_decoded_header.
  rewrite Hs. pose proof (evict_rel max (entry_len h) (c_tbl c) (d_tbl d) (d_size d) Ht) as [E1 E2].
  cbn [e_hdr new_entry].
  destruct (enc_evict _ _ _ _) as [t1 s1], (dec_evict _ _ _ _) as [t2 s2]. simpl in *. subst s2.
  destruct (s1 + entry_len h <=? max)%Z; split; simpl; auto.
  rewrite !map_app, E1. reflexivity.
Qed.

Lemma encode_header_sim max h c d c' bs :
  Rel c d -> encode_header max h c = Ok (c', bs) ->
  Rel c' (dstep max h d) /\
  forall acc rest, dec max d acc (bs ++ rest) = dec max (dstep max h d) (acc ++ [h]) rest.
Proof.
  intros HR E. pose proof HR as [Hv Hs]. pose proof (view_hdrs _ _ Hv) as Hh.
  unfold encode_header, determine_representation in E. unfold dstep.
  rewrite <- (find_header_hdrs h _ _ Hh).
  destruct (find_header h (c_tbl c)) as [i|] eqn:Ef.
  - apply find_header_some in Ef as (e & En & Eh). rewrite En in E.
    assert (Hd : exists e', nth_error (d_tbl d) i = Some e' /\ view e' = view e).
    { assert (X : nth_error (map view (d_tbl d)) i = Some (view e)).
      { rewrite <- Hv. now apply map_nth_error. }
      rewrite nth_error_map in X. destruct (nth_error (d_tbl d) i) as [e'|]; [|discriminate].
      exists e'. simpl in X. split; congruence. }
    destruct Hd as (e' & Ed & Ev).
    assert (Hr : e_ref e' = e_ref e /\ e_hdr e' = h) by (unfold view in Ev; split; congruence).
    destruct Hr as [Hr Hh'].
    inv_ok. split.
    + split; [|exact Hs]. cbn [c_tbl d_tbl].
      rewrite !(update_nth_map view _ (fun v => (fst v, true))) by reflexivity. now rewrite Hv.
    + intros acc rest. destruct (e_ref e) eqn:Er.
      * rewrite <- app_assoc. rewrite (dec_toggle _ _ _ i e' _ _ Ed H). rewrite Hr, app_nil_r.
        set (d1 := mkDec (update_nth i flip (d_tbl d)) (d_size d)).
        assert (Ed1 : nth_error (d_tbl d1) i = Some (flip e')) by (apply nth_error_update_nth, Ed).
        rewrite (dec_toggle _ d1 _ i (flip e') _ _ Ed1 H0).
        unfold flip at 2 3. rewrite Hr. cbn [e_ref set_both e_hdr].
        rewrite Hh'. cbn [d_tbl d_size d1]. rewrite update_nth_twice.
        f_equal. f_equal. eapply update_nth_ext; [exact Ed|].
        unfold flip. rewrite Hr. reflexivity.
      * inv_ok. cbn [app]. rewrite (dec_toggle _ _ _ i e' _ _ Ed H0). rewrite Hr, Hh'.
        f_equal. f_equal. eapply update_nth_ext; [exact Ed|]. unfold flip. now rewrite Hr.
  - unfold is_path. destruct (str_eqb (fst h) (lit ":path")).
    + inv_ok. split; [exact HR|]. intros acc rest.
      apply (dec_literal max d acc false h (c_tbl c')); auto.
    + inv_ok. split; [now apply append_rel|]. intros acc rest.
      apply (dec_literal max d acc true h (c_tbl c)); auto.
Qed.

Lemma encode_header_total max h c : exists c' bs, encode_header max h c = Ok (c', bs).
Proof.
  unfold encode_header, determine_representation.
  assert (W : forall byte, byte = 96 \/ byte = 64 -> exists bs, write_literal byte h (c_tbl c) = Ok bs).
  { intros byte Hb. unfold write_literal.
    destruct (write_read_integer 5 byte (name_code (find_header_name h (c_tbl c)))) as (b0 & -> & _);
      [lia|destruct Hb as [->| ->]; reflexivity|destruct Hb as [->| ->]; reflexivity|].
    destruct (write_read_literal (fst h)) as (bn & En & _).
    destruct (write_read_literal (snd h)) as (bv & -> & _). rewrite En.
    destruct (find_header_name h (c_tbl c)); cbn [bind]; eauto. }
  destruct (find_header h (c_tbl c)) as [i|] eqn:Ef.
  - apply find_header_some in Ef as (e & -> & _).
    destruct (write_toggle (N.of_nat i)) as (b & bs & -> & _).
    destruct (e_ref e); cbn [bind]; eauto.
  - destruct (str_eqb (fst h) (lit ":path")).
    + destruct (W 96) as (bs & ->); auto. cbn [bind]; eauto.
    + destruct (W 64) as (bs & ->); auto. cbn [bind]; eauto.
Qed.

(** ** Whole phases *)

Definition dsteps (max : Z) (hs : list header) (d : decoder) : decoder :=
  fold_left (fun d h => dstep max h d) hs d.

Lemma encode_remaining_sim max hs : forall c d c' bs,
  Rel c d -> encode_remaining max hs c = Ok (c', bs) ->
  Rel c' (dsteps max hs d) /\
  forall acc rest, dec max d acc (bs ++ rest) = dec max (dsteps max hs d) (acc ++ hs) rest.
Proof.
  induction hs as [|h hs IH]; intros c d c' bs HR E; simpl in E; inv_ok.
  - split; [exact HR|]. intros. now rewrite app_nil_r.
  - destruct (encode_header_sim _ _ _ _ _ _ HR H) as [HR1 D1].
    destruct (IH _ _ _ _ HR1 H0) as [HR2 D2].
    split; [exact HR2|]. intros acc rest. rewrite <- app_assoc, D1, D2, <- app_assoc. reflexivity.
Qed.

Lemma encode_remaining_total max hs : forall c, exists c' bs, encode_remaining max hs c = Ok (c', bs).
Proof.
  induction hs as [|h hs IH]; intros c; simpl; [eauto|].
  destruct (encode_header_total max h c) as (c1 & b1 & ->). cbn [bind].
  destruct (IH c1) as (c2 & b2 & ->). cbn [bind]. eauto.
Qed.

(** The events of the re-encoding loop: header [h] of [K] is missing and is
    encoded again. *)
Inductive steps (max : Z) (K : list header) : decoder -> list header -> decoder -> Prop :=
| steps_nil d : steps max K d [] d
| steps_cons d h es d' : In h K -> ~ In h (hdrs (d_tbl d)) ->
    steps max K (dstep max h d) es d' -> steps max K d (h :: es) d'.

Lemma steps_app max K d1 es1 d2 es2 d3 :
  steps max K d1 es1 d2 -> steps max K d2 es2 d3 -> steps max K d1 (es1 ++ es2) d3.
Proof. induction 1; simpl; auto. intros. constructor; auto. Qed.

Lemma reencode_pass_sim max K kept : incl kept K -> forall c d enc c' bs enc',
  Rel c d -> reencode_pass max kept c enc = Ok (c', bs, enc') ->
  exists d' es, Rel c' d' /\ steps max K d es d' /\
    (forall acc rest, dec max d acc (bs ++ rest) = dec max d' (acc ++ es) rest) /\
    (enc' = enc || negb (length es =? 0)%nat) /\
    (es = [] -> incl kept (hdrs (d_tbl d))).
Proof.
  induction kept as [|h kept IH]; intros HK c d enc c' bs enc' HR E; cbn [reencode_pass] in E.
  - inv_ok. exists d, []. split; [exact HR|]. split; [constructor|].
    split; [intros; now rewrite app_nil_r|]. split; [now rewrite orb_false_r|]. intros _ x [].
  - pose proof (view_hdrs _ _ (proj1 HR)) as Hh.
    rewrite (find_header_hdrs h _ _ Hh) in E.
    assert (HK' : incl kept K) by (intros x Hx; apply HK; now right).
    destruct (find_header h (d_tbl d)) as [i|] eqn:Ef.
    + destruct (IH HK' _ _ _ _ _ _ HR E) as (d' & es & A & B & C & D & F).
      exists d', es. do 4 (split; [assumption|]). intros He.
      intros x [<-|Hx]; [|now apply F].
      apply find_header_some in Ef as (e & En & <-). apply in_map, nth_error_In with i. exact En.
    + inv_ok. destruct (encode_header_sim _ _ _ _ _ _ HR H) as [HR1 D1].
      destruct (IH HK' _ _ _ _ _ _ HR1 H0) as (d' & es & A & B & C & D & F).
      exists d', (h :: es). split; [exact A|]. split.
      { constructor; auto; [apply HK; now left|]. now apply find_header_none. }
      split.
      { intros acc rest. rewrite <- app_assoc, D1, C, <- app_assoc. reflexivity. }
      split; [|discriminate]. rewrite D. simpl. now rewrite orb_true_r.
Qed.

Lemma reencode_loop_S f max K c : K <> [] ->
  reencode_loop (S f) max K true c =
  let* (c, b, encoded) := reencode_pass max K c false in
  let* (c, r) := reencode_loop f max K encoded c in
  Ok (c, b ++ r).
Proof. destruct K; [congruence|reflexivity]. Qed.

Lemma reencode_loop_sim fuel max K : forall c d c' bs,
  Rel c d -> reencode_loop fuel max K true c = Ok (c', bs) ->
  exists d' es, Rel c' d' /\ steps max K d es d' /\
    (forall acc rest, dec max d acc (bs ++ rest) = dec max d' (acc ++ es) rest) /\
    incl K (hdrs (d_tbl d')).
Proof.
  assert (Hcase : K = [] \/ K <> []) by (destruct K; [left|right]; congruence).
  destruct Hcase as [EK|HK].
  { subst K. intros c d c' bs HR E. assert (reencode_loop fuel max [] true c = Ok (c, [])) as E' by (destruct fuel; reflexivity).
    rewrite E' in E. injection E as <- <-. exists d, []. split; [exact HR|]. split; [constructor|].
    split; [intros; now rewrite app_nil_r|]. intros x []. }
  induction fuel as [|f IH]; intros c d c' bs HR E.
  - destruct K; [congruence|discriminate].
  - rewrite reencode_loop_S in E by exact HK.
    destruct (reencode_pass max K c false) as [[[c1 b1] enc1]|] eqn:Ep; [|discriminate].
    cbn [bind] in E.
    destruct (reencode_loop f max K enc1 c1) as [[c2 b2]|] eqn:El; [|discriminate].
    cbn [bind] in E. injection E as <- <-.
    destruct (reencode_pass_sim max K K (incl_refl K) _ _ _ _ _ _ HR Ep)
      as (d1 & es1 & HR1 & S1 & D1 & En1 & F1).
    destruct enc1.
    + destruct (IH _ _ _ _ HR1 El) as (d2 & es2 & HR2 & S2 & D2 & F2).
      exists d2, (es1 ++ es2). split; [exact HR2|]. split; [now apply steps_app with d1|].
      split; [|exact F2]. intros acc rest. rewrite <- app_assoc, D1, D2, app_assoc. reflexivity.
    + assert (es1 = []) by (destruct es1; [auto|discriminate]). subst es1.
      assert (Hl : reencode_loop f max K false c1 = Ok (c1, [])) by (destruct f, K; reflexivity).
      rewrite Hl in El. injection El as <- <-.
      exists d1, []. split; [exact HR1|]. split; [exact S1|].
      split; [intros; now rewrite app_nil_r|].
      inversion S1; subst. apply F1; reflexivity.
Qed.
