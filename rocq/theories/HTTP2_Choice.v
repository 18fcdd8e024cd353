(** * http2: what the encoder sends, described without its data structures. *)
From Coq Require Import String List NArith ZArith Bool Arith Lia.
From Verif Require Import PyBase NBits HTTP2_Model HTTP2_Int HTTP2_Sim HTTP2_Inv HTTP2_Spec HTTP2_More.
Import ListNotations.
Open Scope N_scope.
Open Scope py_scope.

(** ** Specification *)

(** What both ends remember: headers by index, and whether each is on: it then
    belongs to the next message unless something is said about it. *)
Definition table := list (header * bool).
Definition room (h : header) : Z := Z.of_nat (length (fst h) + length (snd h) + 32).
Definition held (w : table) : Z := fold_right (fun x z => (room (fst x) + z)%Z) 0%Z w.
Definition known (w : table) (h : header) : Prop := In h (map fst w).
Definition same (a b : header) : bool := str_eqb (fst a) (fst b) && str_eqb (snd a) (snd b).
Definition on (w : table) (h : header) : bool := existsb (fun x => same h (fst x) && snd x) w.
Definition occurs (h : header) (hs : list header) : bool := existsb (same h) hs.

(** What is sent: an index, which switches the header on or off, or a header,
    with its name or the lowest index of a header of that name. *)
Inductive naming := Named (i : nat) | Spelt (n : str).
Inductive item := Switch (i : nat) | Literal (remember : bool) (n : naming) (v : str).

Definition item_octets (it : item) : res str :=
  match it with
  | Switch i => write_integer 128 7 (N.of_nat i)
  | Literal r n v =>
      let* a := write_integer (if r then 64 else 96) 5 (match n with Named i => N.of_nat i + 1 | Spelt _ => 0 end) in
      let* b := match n with Named _ => Ok [] | Spelt n => write_literal_string n end in
      let* c := write_literal_string v in
      Ok (a ++ b ++ c)
  end.
Fixpoint items_octets (its : list item) : res str :=
  match its with [] => Ok [] | it :: r => let* a := item_octets it in let* b := items_octets r in Ok (a ++ b) end.

Inductive called (w : table) (n : str) : naming -> Prop :=
| called_index i x : nth_error w i = Some x -> fst (fst x) = n ->
    (forall j y, (j < i)%nat -> nth_error w j = Some y -> fst (fst y) <> n) -> called w n (Named i)
| called_spelt : (forall y, In y w -> fst (fst y) <> n) -> called w n (Spelt n).

Section Spec.
  Context (max : Z).

  (** Remembering a header: as few of the oldest as possible are forgotten; one
      that is larger than the table on its own is not remembered. *)
  Definition remembered (h : header) (w w' : table) : Prop :=
    exists old rest, w = old ++ rest /\
      (forall a x b, old = a ++ x :: b -> (max < held (x :: b ++ rest) + room h)%Z) /\
      (((held rest + room h <= max)%Z /\ w' = rest ++ [(h, true)]) \/ (rest = [] /\ (max < room h)%Z /\ w' = [])).

  Inductive sent (w : table) : header -> list item -> table -> Prop :=
  | sent_off i h : nth_error w i = Some (h, false) -> sent w h [Switch i] (update_nth i (fun x => (fst x, true)) w)
  | sent_on i h : nth_error w i = Some (h, true) -> sent w h [Switch i; Switch i] w
  | sent_path v n : ~ known w (lit ":path", v) -> called w (lit ":path") n -> sent w (lit ":path", v) [Literal false n v] w
  | sent_new n v m w' : ~ known w (n, v) -> n <> lit ":path" -> called w n m -> remembered (n, v) w w' ->
      sent w (n, v) [Literal true m v] w'.

  Inductive all_sent : table -> list header -> list item -> table -> Prop :=
  | all_sent_none w : all_sent w [] [] w
  | all_sent_next w h its w1 hs its' w2 : sent w h its w1 -> all_sent w1 hs its' w2 -> all_sent w (h :: hs) (its ++ its') w2.

  (** Headers that were on and of which both ends may have lost some meanwhile:
      those lost are sent, again and again until none is lost. *)
  Inductive restored : table -> list header -> list item -> table -> Prop :=
  | restored_none w : restored w [] [] w
  | restored_known w h hs its w' : known w h -> restored w hs its w' -> restored w (h :: hs) its w'
  | restored_lost w h its w1 hs its' w2 : ~ known w h -> sent w h its w1 -> restored w1 hs its' w2 -> restored w (h :: hs) (its ++ its') w2.
  Inductive settled (kept : list header) : table -> list item -> table -> Prop :=
  | settled_now w : (forall h, In h kept -> known w h) -> settled kept w [] w
  | settled_later w its w1 its' w2 : restored w kept its w1 -> its <> [] -> settled kept w1 its' w2 -> settled kept w (its ++ its') w2.

  (** Nothing is said about the first occurrence of a header that is on. *)
  Fixpoint unsaid (w : table) (before hs : list header) : list header :=
    match hs with [] => [] | h :: r => if on w h && negb (occurs h before) then h :: unsaid w (h :: before) r else unsaid w (h :: before) r end.
  Fixpoint said (w : table) (before hs : list header) : list header :=
    match hs with [] => [] | h :: r => if on w h && negb (occurs h before) then said w (h :: before) r else h :: said w (h :: before) r end.
  (** Indices of the headers that are on and not in the message. *)
  Fixpoint ended (i : nat) (w : table) (hs : list header) : list nat :=
    match w with [] => [] | (h, b) :: r => if b && negb (occurs h hs) then i :: ended (S i) r hs else ended (S i) r hs end.

  Inductive message (w : table) (hs : list header) : list item -> table -> Prop :=
  | message_says a w1 b w2 :
      all_sent (map (fun x => (fst x, snd x && occurs (fst x) hs)) w) (said w [] hs) a w1 ->
      settled (unsaid w [] hs) w1 b w2 ->
      message w hs (map Switch (ended 0 w hs) ++ a ++ b) w2.

  (** Messages and their frames: two octets of length, six zeros, the items. *)
  Inductive conversation : table -> list (list header) -> list str -> table -> Prop :=
  | conv_nothing w : conversation w [] [] w
  | conv_message w hs its s w1 len ms fs w2 : message w hs its w1 -> items_octets its = Ok s -> pack_H (lenN s) = Ok len ->
      conversation w1 ms fs w2 -> conversation w (hs :: ms) ((len ++ [0; 0; 0; 0; 0; 0] ++ s) :: fs) w2.
End Spec.

Definition at_start (is_request : bool) : table := map (fun h => (h, false)) (default_headers is_request).

(** ** Proofs *)

Lemma same_spec a b : reflect (a = b) (same a b).
Proof. exact (header_eqb_spec a b). Qed.

Lemma occurs_in h hs : occurs h hs = true <-> In h hs.
Proof.
  unfold occurs. rewrite existsb_exists. split.
  - intros (x & Hx & E). destruct (same_spec h x); congruence.
  - intros H. exists h. split; [exact H|]. destruct (same_spec h h); congruence.
Qed.

Record Shown (c : encoder) (w : table) : Prop := {
  sh_tbl : map view (c_tbl c) = w;
  sh_nodup : NoDup (hdrs (c_tbl c));
  sh_size : c_size c = sum_len (hdrs (c_tbl c)) }.

Lemma room_len h : entry_len h = room h.
Proof. unfold entry_len, room. lia. Qed.

Lemma held_view t : held (map view t) = sum_len (hdrs t).
Proof. induction t as [|x t IH]; [reflexivity|]. cbn [map held fold_right hdrs sum_len view fst]. rewrite room_len. unfold held, hdrs, sum_len in IH. now rewrite IH. Qed.

Lemma known_view t h : known (map view t) h <-> In h (hdrs t).
Proof. unfold known. rewrite map_map. cbn [view fst]. reflexivity. Qed.

Lemma items_octets_app a b x y : items_octets a = Ok x -> items_octets b = Ok y -> items_octets (a ++ b) = Ok (x ++ y).
Proof.
  revert x. induction a as [|it a IH]; intros x Ha Hb; cbn [items_octets app] in *.
  - injection Ha as <-. exact Hb.
  - destruct (item_octets it) as [p|]; [|discriminate]. cbn [bind] in *. destruct (items_octets a) as [q|]; [|discriminate]. cbn [bind] in *.
    injection Ha as <-. rewrite (IH q eq_refl Hb). cbn [bind]. now rewrite app_assoc.
Qed.

Lemma called_find h t : called (map view t) (fst h) (match find_header_name h t with Some i => Named i | None => Spelt (fst h) end).
Proof.
  assert (G : match find_header_name h t with
     | Some i => exists x, nth_error t i = Some x /\ fst (e_hdr x) = fst h /\ forall j y, (j < i)%nat -> nth_error t j = Some y -> fst (e_hdr y) <> fst h
     | None => forall y, In y t -> fst (e_hdr y) <> fst h end).
  { induction t as [|x t IH]; cbn [find_header_name]; [intros y []|].
    destruct (str_eqb_spec (fst h) (fst (e_hdr x))) as [E|E].
    - exists x. split; [reflexivity|]. split; [congruence|]. intros j y Hj. lia.
    - destruct (find_header_name h t) as [i|]; cbn [option_map].
      + destruct IH as (y & Hy & Ey & L). exists y. split; [exact Hy|]. split; [exact Ey|]. intros [|j] z Hj Hz; cbn [nth_error] in Hz.
        * injection Hz as <-. congruence.
        * apply (L j); [lia|exact Hz].
      + intros y [<-|Hy]; [congruence|auto]. }
  destruct (find_header_name h t) as [i|].
  - destruct G as (x & Hx & Ex & L). apply (called_index _ _ i (view x)).
    + now rewrite nth_error_map, Hx.
    + exact Ex.
    + intros j y Hj Hy. rewrite nth_error_map in Hy. destruct (nth_error t j) as [z|] eqn:Ez; [|discriminate]. cbn [option_map] in Hy. injection Hy as <-. exact (L j z Hj Ez).
  - apply called_spelt. intros y Hy. apply in_map_iff in Hy as (z & <- & Hz). exact (G z Hz).
Qed.

Lemma write_literal_octets (b : bool) h t s : write_literal (if b then 64 else 96) h t = Ok s ->
  exists m, called (map view t) (fst h) m /\ items_octets [Literal b m (snd h)] = Ok s.
Proof.
  intros E. exists (match find_header_name h t with Some i => Named i | None => Spelt (fst h) end). split; [apply called_find|].
  unfold write_literal in E. cbn [items_octets item_octets].
  destruct (find_header_name h t) as [i|]; cbn [name_code] in E;
    (match type of E with context [write_integer ?a ?k ?c] => destruct (write_integer a k c) as [p|]; [|discriminate] end); cbn [bind] in *.
  - destruct (write_literal_string (snd h)) as [q|]; [|discriminate]. cbn [bind] in *. rewrite app_nil_r. exact E.
  - destruct (write_literal_string (fst h)) as [o|]; [|discriminate]. cbn [bind] in *.
    destruct (write_literal_string (snd h)) as [q|]; [|discriminate]. cbn [bind] in *. rewrite app_nil_r. exact E.
Qed.

Lemma enc_evict_least max size t : exists old,
  t = old ++ fst (enc_evict max size t (sum_len (hdrs t))) /\
  snd (enc_evict max size t (sum_len (hdrs t))) = sum_len (hdrs (fst (enc_evict max size t (sum_len (hdrs t))))) /\
  (forall a x b, old = a ++ x :: b -> (max < sum_len (hdrs (x :: b ++ fst (enc_evict max size t (sum_len (hdrs t))))) + size)%Z) /\
  (fst (enc_evict max size t (sum_len (hdrs t))) = [] \/ (snd (enc_evict max size t (sum_len (hdrs t))) + size <= max)%Z).
Proof.
  induction t as [|e t IH]; cbn [enc_evict].
  - exists []. cbn [fst snd]. repeat split; auto. intros [|] x b H; discriminate.
  - destruct (sum_len (hdrs (e :: t)) + size >? max)%Z eqn:E.
    + replace (sum_len (hdrs (e :: t)) - entry_len (e_hdr e))%Z with (sum_len (hdrs t)) by (cbn [hdrs map sum_len fold_right]; unfold hdrs, sum_len; lia).
      destruct IH as (old & E1 & E2 & E3 & E4).
      remember (enc_evict max size t (sum_len (hdrs t))) as r. exists (e :: old). split; [cbn [app]; congruence|]. split; [exact E2|]. split; [|exact E4].
      intros [|y a] x b H; cbn [app] in H; injection H as <- H.
      * subst b. rewrite <- E1. apply Z.gtb_lt in E. exact E.
      * exact (E3 a x b H).
    + exists []. cbn [fst snd app]. split; [reflexivity|]. split; [reflexivity|]. split; [intros [|] x b H; discriminate|]. right.
      rewrite Z.gtb_ltb in E. apply Z.ltb_ge in E. exact E.
Qed.

Lemma append_remembered max h c w : Shown c w -> ~ In h (hdrs (c_tbl c)) ->
  exists w', remembered max h w w' /\ Shown (append_encoded_header max (new_entry h true true) c) w'.
Proof.
  intros [<- Hn Hs] Hni. unfold append_encoded_header. cbn [e_hdr new_entry]. rewrite Hs.
  destruct (enc_evict_least max (entry_len h) (c_tbl c)) as (old & E1 & E2 & E3 & E4).
  destruct (enc_evict max (entry_len h) (c_tbl c) (sum_len (hdrs (c_tbl c)))) as [t ts]. cbn [fst snd] in *.
  assert (Hold : forall a x b, map view old = a ++ x :: b -> (max < held (x :: b ++ map view t) + room h)%Z).
  { intros a x b H. apply map_eq_app in H as (a' & r & -> & <- & H). apply map_eq_cons in H as (x' & b' & -> & <- & <-).
    specialize (E3 a' x' b' eq_refl). rewrite room_len, <- held_view in E3. cbn [map] in E3. now rewrite map_app in E3. }
  assert (Hsub : NoDup (hdrs t) /\ ~ In h (hdrs t)).
  { rewrite E1 in Hn, Hni. unfold hdrs in *. rewrite map_app in Hn, Hni. split.
    - clear - Hn. induction (map e_hdr old) as [|x l IH]; [exact Hn|]. cbn [app] in Hn. inversion Hn. auto.
    - intros X. apply Hni. apply in_or_app. auto. }
  destruct (Z.leb_spec (ts + entry_len h) max) as [L|L].
  - exists (map view t ++ [(h, true)]). split.
    + exists (map view old), (map view t). split; [now rewrite <- map_app, <- E1|]. split; [exact Hold|]. left. split; [|reflexivity].
      rewrite held_view, <- room_len. lia.
    + split; cbn [c_tbl c_size].
      * now rewrite map_app.
      * unfold hdrs. rewrite map_app. cbn [map new_entry e_hdr]. apply NoDup_snoc; tauto.
      * unfold hdrs. rewrite map_app, sum_len_app. cbn [map new_entry e_hdr sum_len fold_right]. unfold hdrs in E2. lia.
  - destruct E4 as [->|E4]; [|lia]. exists []. split.
    + exists (map view old), []. split; [rewrite app_nil_r; now rewrite E1, app_nil_r|]. split; [exact Hold|]. right.
      split; [reflexivity|]. split; [|reflexivity]. cbn in E2. subst ts. rewrite <- room_len. lia.
    + split; cbn [c_tbl c_size]; [reflexivity|constructor|exact E2].
Qed.

Lemma encode_header_sent max h c c' s w : Shown c w -> encode_header max h c = Ok (c', s) ->
  exists its w', sent max w h its w' /\ items_octets its = Ok s /\ Shown c' w' /\ its <> [].
Proof.
  intros S E. pose proof S as [Hw Hn Hs]. unfold encode_header, determine_representation in E.
  destruct (find_header h (c_tbl c)) as [i|] eqn:Ef.
  - apply find_header_some in Ef as (e & En & Eh). rewrite En in E.
    assert (Hx : nth_error w i = Some (h, e_ref e)) by (rewrite <- Hw, nth_error_map, En; cbn [option_map]; unfold view; now rewrite Eh).
    assert (S' : Shown (mkEnc (update_nth i (set_both true true) (c_tbl c)) (c_size c)) (update_nth i (fun x => (fst x, true)) w)).
    { split; cbn [c_tbl c_size].
      - rewrite <- Hw. apply update_nth_map. reflexivity.
      - rewrite hdrs_update_nth; auto.
      - rewrite hdrs_update_nth; auto. }
    destruct (e_ref e).
    + destruct (write_integer 128 7 (N.of_nat i)) as [b|] eqn:Eb; [|discriminate]. cbn [bind] in E. injection E as <- <-.
      exists [Switch i; Switch i], w. split; [now constructor|]. split; [cbn [items_octets item_octets]; rewrite Eb; cbn [bind]; now rewrite app_nil_r|].
      split; [|discriminate]. replace (update_nth i (fun x : header * bool => (fst x, true)) w) with w in S'; [exact S'|].
      clear - Hx. revert i Hx. induction w as [|x w IH]; intros [|i] Hx; cbn [update_nth nth_error] in *; try discriminate.
      * now injection Hx as ->.
      * f_equal. now apply IH.
    + cbn [bind] in E. destruct (write_integer 128 7 (N.of_nat i)) as [b|] eqn:Eb; [|discriminate]. cbn [bind] in E. injection E as <- <-.
      exists [Switch i], (update_nth i (fun x => (fst x, true)) w). split; [now constructor|].
      split; [cbn [items_octets item_octets]; rewrite Eb; cbn [bind]; now rewrite app_nil_r|]. split; [exact S'|discriminate].
  - apply find_header_none in Ef. destruct h as [n v]. cbn [fst] in E.
    assert (Hk : ~ known w (n, v)) by (rewrite <- Hw, known_view; exact Ef).
    destruct (str_eqb_spec n (lit ":path")) as [Ep|Ep].
    + destruct (write_literal 96 (n, v) (c_tbl c)) as [b|] eqn:Eb; [|discriminate]. cbn [bind] in E. injection E as <- <-.
      destruct (write_literal_octets false _ _ _ Eb) as (m & Hm & Ho). rewrite Hw in Hm. cbn [fst snd] in *. subst n.
      exists [Literal false m v], w. split; [now constructor|]. split; [exact Ho|]. split; [exact S|discriminate].
    + destruct (write_literal 64 (n, v) (c_tbl c)) as [b|] eqn:Eb; [|discriminate]. cbn [bind] in E. injection E as <- <-.
      destruct (write_literal_octets true _ _ _ Eb) as (m & Hm & Ho). rewrite Hw in Hm. cbn [fst snd] in *.
      destruct (append_remembered max (n, v) c w S Ef) as (w' & R & S').
      exists [Literal true m v], w'. split; [now constructor|]. split; [exact Ho|]. split; [exact S'|discriminate].
Qed.

Lemma encode_remaining_sent max hs : forall c c' s w, Shown c w -> encode_remaining max hs c = Ok (c', s) ->
  exists its w', all_sent max w hs its w' /\ items_octets its = Ok s /\ Shown c' w'.
Proof.
  induction hs as [|h hs IH]; intros c c' s w S E; cbn [encode_remaining] in E.
  - injection E as <- <-. exists [], w. split; [constructor|]. split; [reflexivity|exact S].
  - destruct (encode_header max h c) as [[c1 b]|] eqn:E1; [|discriminate]. cbn [bind] in E.
    destruct (encode_remaining max hs c1) as [[c2 r]|] eqn:E2; [|discriminate]. cbn [bind] in E. injection E as <- <-.
    destruct (encode_header_sent _ _ _ _ _ _ S E1) as (i1 & w1 & A1 & O1 & S1 & _).
    destruct (IH _ _ _ _ S1 E2) as (i2 & w2 & A2 & O2 & S2).
    exists (i1 ++ i2), w2. split; [econstructor; eauto|]. split; [now apply items_octets_app|exact S2].
Qed.

Lemma reencode_pass_restored max hs : forall c b0 c' s b w, Shown c w -> reencode_pass max hs c b0 = Ok (c', s, b) ->
  exists its w', restored max w hs its w' /\ items_octets its = Ok s /\ Shown c' w' /\ (b = true <-> b0 = true \/ its <> []) /\
    (its = [] -> c' = c /\ s = [] /\ forall h, In h hs -> known w h).
Proof.
  induction hs as [|h hs IH]; intros c b0 c' s b w S E; cbn [reencode_pass] in E.
  - injection E as <- <- <-. exists [], w. split; [constructor|]. split; [reflexivity|]. split; [exact S|]. split; [tauto|]. intros _. split; [reflexivity|]. split; [reflexivity|contradiction].
  - pose proof S as [Hw Hn Hs]. destruct (find_header h (c_tbl c)) as [i|] eqn:Ef.
    + destruct (IH _ _ _ _ _ _ S E) as (its & w' & R & O & S' & B & Z).
      assert (K : known w h) by (rewrite <- Hw, known_view; apply find_header_some in Ef as (e & En & <-); apply in_map; now apply nth_error_In in En).
      exists its, w'. split; [now constructor|]. split; [exact O|]. split; [exact S'|]. split; [exact B|]. intros X. destruct (Z X) as (Z1 & Z2 & Z3).
      split; [exact Z1|]. split; [exact Z2|]. intros g [<-|Hg]; auto.
    + assert (K : ~ known w h) by (rewrite <- Hw, known_view; now apply find_header_none).
      destruct (encode_header max h c) as [[c1 b1]|] eqn:E1; [|discriminate]. cbn [bind] in E.
      destruct (reencode_pass max hs c1 true) as [[[c2 r] b2]|] eqn:E2; [|discriminate]. cbn [bind] in E. injection E as <- <- <-.
      destruct (encode_header_sent _ _ _ _ _ _ S E1) as (i1 & w1 & A1 & O1 & S1 & N1).
      destruct (IH _ _ _ _ _ _ S1 E2) as (i2 & w2 & A2 & O2 & S2 & B2 & _).
      assert (N : i1 ++ i2 <> []) by (destruct i1; [congruence|discriminate]).
      exists (i1 ++ i2), w2. split; [eapply restored_lost; eauto|]. split; [now apply items_octets_app|]. split; [exact S2|]. split; [|intros X; contradiction].
      split; [auto|]. intros _. apply B2. auto.
Qed.

Lemma reencode_loop_settled fuel max kept : forall c c' s w, Shown c w -> reencode_loop fuel max kept true c = Ok (c', s) ->
  exists its w', settled max kept w its w' /\ items_octets its = Ok s /\ Shown c' w'.
Proof.
  destruct kept as [|k kept].
  - intros c c' s w S E. exists [], w. replace (reencode_loop fuel max [] true c) with (@Ok (encoder * str) (c, [])) in E by (destruct fuel; reflexivity).
    injection E as <- <-. split; [constructor; contradiction|]. split; [reflexivity|exact S].
  - induction fuel as [|f IH]; intros c c' s w S E; cbn [reencode_loop] in E; [discriminate|].
    destruct (reencode_pass max (k :: kept) c false) as [[[c1 b] en]|] eqn:E1; [|discriminate]. cbn [bind] in E.
    destruct (reencode_loop f max (k :: kept) en c1) as [[c2 r]|] eqn:E2; [|discriminate]. cbn [bind] in E. injection E as <- <-.
    destruct (reencode_pass_restored _ _ _ _ _ _ _ _ S E1) as (i1 & w1 & A1 & O1 & S1 & B & Z).
    destruct i1 as [|it i1].
    + destruct (Z eq_refl) as (-> & -> & K). destruct en; [destruct B as [B _]; destruct (B eq_refl); congruence|].
      assert (E3 : reencode_loop f max (k :: kept) false c = Ok (c, [])) by (destruct f; reflexivity).
      rewrite E3 in E2. injection E2 as <- <-. exists [], w. split; [now constructor|]. split; [reflexivity|exact S].
    + destruct en; [|destruct B as [_ B]; assert (X : false = true) by (apply B; right; discriminate); discriminate X].
      destruct (IH _ _ _ _ S1 E2) as (i2 & w2 & A2 & O2 & S2).
      exists ((it :: i1) ++ i2), w2. split; [eapply settled_later; eauto; discriminate|]. split; [now apply items_octets_app|exact S2].
Qed.

(** The difference between the table and the message. *)
Lemma on_view t h : NoDup (hdrs t) -> forall i e, nth_error t i = Some e -> e_hdr e = h -> on (map view t) h = e_ref e.
Proof.
  intros Hn i e He Eh. destruct (e_ref e) eqn:Er.
  - unfold on. apply existsb_exists. exists (view e). split; [apply in_map; now apply nth_error_In in He|].
    unfold view. cbn [fst snd]. rewrite Eh, Er. destruct (same_spec h h); [reflexivity|congruence].
  - destruct (on (map view t) h) eqn:E; [|reflexivity]. apply existsb_exists in E as (x & Hx & E). apply in_map_iff in Hx as (y & <- & Hy).
    unfold view in E. cbn [fst snd] in E. apply andb_prop in E as [E1 E2]. destruct (same_spec h (e_hdr y)) as [E3|]; [|discriminate].
    assert (y = e) by (eapply nodup_hdr_unique; [exact Hn|exact Hy|now apply nth_error_In in He|congruence]). congruence.
Qed.
Lemma on_absent t h : ~ In h (hdrs t) -> on (map view t) h = false.
Proof.
  intros H. destruct (on (map view t) h) eqn:E; [|reflexivity]. exfalso. apply existsb_exists in E as (x & Hx & E). apply in_map_iff in Hx as (y & <- & Hy).
  unfold view in E. cbn [fst snd] in E. apply andb_prop in E as [E1 _]. destruct (same_spec h (e_hdr y)) as [->|]; [|discriminate]. apply H. now apply in_map.
Qed.

Lemma diff_loop_said hs : forall before t kept rem,
  NoDup (hdrs t) ->
  (forall e, In e t -> (e_emit e = true <-> e_ref e = true /\ In (e_hdr e) before)) ->
  let '(t', kept', rem') := diff_loop hs t kept rem in
  map view t' = map view t /\
  (forall e, In e t' -> (e_emit e = true <-> e_ref e = true /\ (In (e_hdr e) before \/ In (e_hdr e) hs))) /\
  kept' = kept ++ unsaid (map view t) before hs /\ rem' = rem ++ said (map view t) before hs.
Proof.
  induction hs as [|h hs IH]; intros before t kept rem Hn Hm; cbn [diff_loop unsaid said].
  - rewrite !app_nil_r. split; [reflexivity|]. split; [|split; reflexivity]. intros e He. rewrite (Hm e He). cbn. tauto.
  - (* [h] is said *)
    assert (Hrem : (on (map view t) h && negb (occurs h before) = false) ->
      let '(t', kept', rem') := diff_loop hs t kept (rem ++ [h]) in
      map view t' = map view t /\
      (forall e, In e t' -> (e_emit e = true <-> e_ref e = true /\ (In (e_hdr e) before \/ In (e_hdr e) (h :: hs)))) /\
      kept' = kept ++ unsaid (map view t) (h :: before) hs /\ rem' = rem ++ h :: said (map view t) (h :: before) hs).
    { intros Hh. specialize (IH (h :: before) t kept (rem ++ [h]) Hn). destruct (diff_loop hs t kept (rem ++ [h])) as [[t' k'] r'].
      destruct IH as (I1 & I2 & I3 & I4).
      - intros e He. rewrite (Hm e He). cbn [In]. split; [tauto|]. intros [Hr [Hx|Hx]]; [|tauto]. split; [exact Hr|].
        subst h. apply In_nth_error in He as (i & He). rewrite (on_view t (e_hdr e) Hn i e He eq_refl), Hr in Hh. cbn [andb] in Hh.
        apply negb_false_iff, occurs_in in Hh. exact Hh.
      - split; [exact I1|]. split; [|split; [exact I3|now rewrite <- app_assoc in I4]].
        intros e He. rewrite (I2 e He). cbn [In]. tauto. }
    destruct (find_header h t) as [i|] eqn:Ef.
    + apply find_header_some in Ef as (e & En & Eh). rewrite En. pose proof (nth_error_In _ _ En) as Hin.
      pose proof (on_view t h Hn i e En Eh) as Hon. rewrite Hon in Hrem |- *.
      destruct (e_ref e) eqn:Er; [destruct (e_emit e) eqn:Ee|].
      * cbn [andb] in *. assert (Hb : occurs h before = true) by (apply occurs_in; apply (Hm e Hin) in Ee; rewrite Eh in Ee; tauto).
        rewrite Hb in *. cbn [negb] in *. exact (Hrem eq_refl).
      * cbn [andb] in *. destruct (occurs h before) eqn:Hb.
        { apply occurs_in in Hb. assert (X : e_emit e = true) by (apply (Hm e Hin); rewrite Eh; auto). congruence. }
        cbn [negb]. specialize (IH (h :: before) (update_nth i (set_emit true) t) (kept ++ [h]) rem).
        destruct (diff_loop hs (update_nth i (set_emit true) t) (kept ++ [h]) rem) as [[t' k'] r'].
        rewrite update_view in IH. destruct IH as (I1 & I2 & I3 & I4).
        -- now rewrite hdrs_update_nth.
        -- intros e' Hin'. destruct (in_update_nth e_hdr _ _ _ _ _ Hn En Hin') as [->|[Hin'' Hne]].
           ++ cbn [set_emit e_emit e_ref e_hdr In]. rewrite Eh, Er. tauto.
           ++ cbn [In]. rewrite (Hm e' Hin''). rewrite Eh in Hne. intuition congruence.
        -- split; [exact I1|]. split; [|split; [now rewrite <- app_assoc in I3|exact I4]]. intros e' He'. rewrite (I2 e' He'). cbn [In]. tauto.
      * exact (Hrem eq_refl).
    + apply find_header_none in Ef. rewrite (on_absent t h Ef) in Hrem |- *. exact (Hrem eq_refl).
Qed.

Lemma removed_ended hs t : forall i, (forall e, In e t -> (e_emit e = true <-> e_ref e = true /\ In (e_hdr e) hs)) ->
  removed_from i t = ended i (map view t) hs.
Proof.
  induction t as [|e t IH]; intros i H; [reflexivity|]. cbn [removed_from map ended view].
  rewrite (IH (S i)) by (intros x Hx; apply H; now right).
  replace (e_ref e && negb (e_emit e)) with (e_ref e && negb (occurs (e_hdr e) hs)); [reflexivity|].
  destruct (e_ref e) eqn:Er; [|reflexivity]. cbn [andb]. f_equal. specialize (H e (or_introl eq_refl)). rewrite Er in H. rewrite <- occurs_in in H.
  destruct (occurs (e_hdr e) hs), (e_emit e); try reflexivity.
  - symmetry. tauto.
  - destruct H as [H _]. now destruct (H eq_refl).
Qed.

Lemma encode_removed_switch ix : forall c c' s, encode_removed ix c = Ok (c', s) ->
  items_octets (map Switch ix) = Ok s /\ c_size c' = c_size c /\ hdrs (c_tbl c') = hdrs (c_tbl c) /\
  map view (c_tbl c') = fold_left (fun w i => update_nth i (fun x => (fst x, false)) w) ix (map view (c_tbl c)).
Proof.
  induction ix as [|i ix IH]; intros c c' s E; cbn [encode_removed] in E.
  - injection E as <- <-. auto.
  - destruct (write_integer 128 7 (N.of_nat i)) as [b|] eqn:Eb; [|discriminate]. cbn [bind] in E.
    destruct (encode_removed ix _) as [[c1 r]|] eqn:E1; [|discriminate]. cbn [bind] in E. injection E as <- <-.
    destruct (IH _ _ _ E1) as (O & S & H & V). cbn [c_tbl c_size] in *. cbn [map items_octets item_octets fold_left]. rewrite Eb. cbn [bind]. rewrite O. cbn [bind].
    split; [reflexivity|]. split; [exact S|]. split; [rewrite H; now apply hdrs_update_nth|].
    rewrite V. f_equal. apply update_nth_map. reflexivity.
Qed.

Lemma switched_off hs w : fold_left (fun w i => update_nth i (fun x : header * bool => (fst x, false)) w) (ended 0 w hs) w =
  map (fun x => (fst x, snd x && occurs (fst x) hs)) w.
Proof.
  assert (Sh : forall w i, ended (S i) w hs = map S (ended i w hs)).
  { clear. induction w as [|[h b] w IH]; intros i; [reflexivity|]. cbn [ended]. rewrite (IH (S i)). destruct (b && negb (occurs h hs)); reflexivity. }
  assert (Fo : forall l (x : header * bool) w, fold_left (fun w i => update_nth i (fun x : header * bool => (fst x, false)) w) (map S l) (x :: w) =
     x :: fold_left (fun w i => update_nth i (fun x : header * bool => (fst x, false)) w) l w).
  { clear. induction l as [|i l IH]; intros x w; [reflexivity|]. cbn [map fold_left update_nth]. apply IH. }
  induction w as [|[h b] w IH]; [reflexivity|]. cbn [ended map fst snd]. rewrite Sh.
  destruct b; cbn [andb]; [destruct (occurs h hs); cbn [negb]|].
  - now rewrite Fo, IH.
  - cbn [fold_left update_nth fst]. now rewrite Fo, IH.
  - now rewrite Fo, IH.
Qed.

Lemma encode_headers_message fuel max hs c c' f w : Shown c w -> encode_headers fuel max hs c = Ok (c', f) ->
  exists its s len w', message max w hs its w' /\ items_octets its = Ok s /\ pack_H (lenN s) = Ok len /\
    f = len ++ [0; 0; 0; 0; 0; 0] ++ s /\ Shown c' w'.
Proof.
  intros [Hw Hn Hs] E. unfold encode_headers, compute_diff in E.
  pose proof (diff_loop_said hs [] (map (set_emit false) (c_tbl c)) [] []) as D.
  assert (Hh : hdrs (map (set_emit false) (c_tbl c)) = hdrs (c_tbl c)) by (unfold hdrs; rewrite map_map; reflexivity).
  assert (Hv : map view (map (set_emit false) (c_tbl c)) = w) by (rewrite map_map, <- Hw; reflexivity).
  destruct (diff_loop hs (map (set_emit false) (c_tbl c)) [] []) as [[t1 kept] rem].
  destruct D as (D1 & D2 & D3 & D4).
  { now rewrite Hh. }
  { intros e He. apply in_map_iff in He as (y & <- & _). cbn [set_emit e_emit e_ref e_hdr In]. split; [discriminate|tauto]. }
  rewrite Hv in D1, D3, D4. cbn [app] in D3, D4.
  assert (Er : removed_from 0 t1 = ended 0 w hs).
  { rewrite <- D1. apply removed_ended. intros e He. rewrite (D2 e He). cbn [In]. tauto. }
  assert (Et : map view (update_encoder_table (map unmark t1)) = w).
  { rewrite <- D1. unfold update_encoder_table. rewrite !map_map. apply map_ext. intros e. unfold unmark. destruct (e_ref e) eqn:X; unfold view; cbn; now rewrite ?X. }
  assert (Eh : hdrs (update_encoder_table (map unmark t1)) = hdrs (c_tbl c)).
  { transitivity (map fst w); [|rewrite <- Hw; unfold hdrs; now rewrite map_map]. rewrite <- Et. unfold hdrs. now rewrite (map_map view fst). }
  destruct (encode_removed _ _) as [[c1 b1]|] eqn:E1; [|discriminate]. cbn [bind] in E.
  destruct (encode_remaining max rem c1) as [[c2 b2]|] eqn:E2; [|discriminate]. cbn [bind] in E.
  destruct (reencode_loop fuel max kept true c2) as [[c3 b3]|] eqn:E3; [|discriminate]. cbn [bind] in E.
  destruct (encode_removed_switch _ _ _ _ E1) as (O1 & S1 & H1 & V1). cbn [c_tbl c_size] in *.
  rewrite Er in O1, V1. rewrite Et, switched_off in V1.
  assert (Sh1 : Shown c1 (map (fun x => (fst x, snd x && occurs (fst x) hs)) w)).
  { split; [exact V1| |]; rewrite H1, Eh; [exact Hn|congruence]. }
  destruct (encode_remaining_sent _ _ _ _ _ _ Sh1 E2) as (i2 & w2 & A2 & O2 & Sh2).
  destruct (reencode_loop_settled _ _ _ _ _ _ _ Sh2 E3) as (i3 & w3 & A3 & O3 & Sh3).
  unfold frame_header in E. destruct (pack_H (lenN (b1 ++ b2 ++ b3))) as [len|] eqn:El; [|discriminate]. cbn [bind] in E. injection E as <- <-.
  exists (map Switch (ended 0 w hs) ++ i2 ++ i3), (b1 ++ b2 ++ b3), len, w3.
  split; [econstructor; [rewrite <- D4; exact A2|rewrite <- D3; exact A3]|].
  split; [apply items_octets_app; [exact O1|now apply items_octets_app]|]. split; [exact El|]. split; [now rewrite <- app_assoc|exact Sh3].
Qed.

Lemma session_conversation fuel max ms : forall c c' fs w, Shown c w -> encode_all fuel max c ms = Ok (c', fs) ->
  exists w', conversation max w ms fs w' /\ Shown c' w'.
Proof.
  induction ms as [|m ms IH]; intros c c' fs w S E; cbn [encode_all] in E.
  - injection E as <- <-. exists w. split; [constructor|exact S].
  - destruct (encode_headers fuel max m c) as [[c1 f]|] eqn:E1; [|discriminate]. cbn [bind] in E.
    destruct (encode_all fuel max c1 ms) as [[c2 fs']|] eqn:E2; [|discriminate]. cbn [bind] in E. injection E as <- <-.
    destruct (encode_headers_message _ _ _ _ _ _ _ S E1) as (its & s & len & w1 & M & O & L & -> & S1).
    destruct (IH _ _ _ _ S1 E2) as (w2 & C & S2). exists w2. split; [econstructor; eauto|exact S2].
Qed.

Lemma shown_start r : Shown (init_encoder r) (at_start r).
Proof.
  destruct (init_good r) as [H1 H2]. split; [|exact H1|exact H2].
  unfold at_start. cbn [init_encoder c_tbl]. now rewrite map_map.
Qed.
