(** * The simple codec: from the wire text to the receiver, and sessions. *)
From Coq Require Import String List NArith ZArith Bool Lia Permutation Arith.
From Verif Require Import PyBase PyStr NBits Bits PyMerge Lib_Model Lib_Spec Lib_Proofs H1_Model H1_Spec H1_Proofs Prop_H1.
From Verif Require Import Simple_Model Simple_Spec Simple_Proofs.
Import ListNotations.
Open Scope N_scope.
Open Scope py_scope.

Lemma colon_lit s : forallb (fun c => negb ((65 <=? c) && (c <=? 90)) && negb (c =? 10)) s
    && negb (existsb (N.eqb 58) s) = true -> colon_name (58 :: s).
Proof.
  intros H. apply andb_true_iff in H as [H1 H2]. rewrite forallb_forall in H1. split; [reflexivity|]. split; [discriminate|].
  assert (H3 : ~ In 58 s).
  { intros Hin. apply negb_true_iff in H2. assert (existsb (N.eqb 58) s = true); [|congruence]. apply existsb_exists. exists 58. auto. }
  split; [|split; [|exact H3]].
  - intros c [<-|Hc]; [lia|]. specialize (H1 c Hc). apply andb_true_iff in H1 as [H1 _]. intros [A B].
    apply N.leb_le in A, B. rewrite A, B in H1. discriminate.
  - intros [E|Hin]; [discriminate|]. specialize (H1 _ Hin). discriminate.
Qed.

Ltac colon := first [apply (colon_lit (lit "method")) | apply (colon_lit (lit "path")) | apply (colon_lit (lit "version"))
  | apply (colon_lit (lit "status-text")) | apply (colon_lit (lit "status"))]; reflexivity.

Lemma message_all_ok b d : simple_message b d -> all_ok d.
Proof.
  destruct b; intros H.
  - destruct H as (HN & _ & _ & HS). split; [exact HN|]. intros [k v] Hin. cbn [fst].
    destruct (mem_str_spec k [lit ":method"; lit ":path"; lit ":version"; lit ":status-text"]) as [Hs|Hs]; [|now apply (HS k v)].
    right. cbn [In] in Hs. destruct Hs as [<-|[<-|[<-|[<-|[]]]]]; colon.
  - destruct H as (HN & _ & _ & _ & HS). split; [exact HN|]. intros [k v] Hin. cbn [fst].
    destruct (mem_str_spec k [lit ":version"; lit ":status"; lit ":status-text"]) as [Hs|Hs]; [|now apply (HS k v)].
    right. cbn [In] in Hs. destruct Hs as [<-|[<-|[<-|[]]]]; colon.
Qed.

Lemma h_ok : header_name (lit "h") /\ hd 0 (lit "h") <> 58.
Proof.
  split; [|discriminate]. split; [discriminate|]. split; [|cbn; intuition discriminate].
  intros c Hc. vm_compute in Hc. destruct Hc as [<-|[]]. lia.
Qed.

Lemma h2_word : one_word (lit "H/2").
Proof.
  split; [discriminate|]. intros c Hc. apply not_white_not. vm_compute in Hc. repeat (destruct Hc as [<-|Hc]; [reflexivity|]). destruct Hc.
Qed.

Lemma word_line s : one_word s -> s <> [] /\ one_line s.
Proof.
  intros [H1 H2]. split; [exact H1|]. split.
  - intros Hin. apply H2 in Hin. apply Hin. right. lia.
  - right. destruct s as [|c s]; [congruence|]. split; [apply H2; now left|]. apply H2.
    assert (A : exists l, c :: s = l ++ [last (c :: s) 0]) by (exists (removelast (c :: s)); apply app_removelast_last; discriminate).
    destruct A as [l A]. rewrite A at 2. apply in_or_app. right. now left.
Qed.

Lemma no_nul_piece v x : ~ In 0 v -> piece_of 0 v x -> x = v.
Proof. intros H Hp. apply piece_of_split in Hp. rewrite split_on_free in Hp by exact H. destruct Hp as [<-|[]]. reflexivity. Qed.

Lemma last_last {A} (l : list A) x d : last (l ++ [x]) d = x.
Proof. induction l as [|a l IH]; [reflexivity|]. cbn [app]. destruct l; [reflexivity|exact IH]. Qed.

(** The reference line is on one line. *)
Lemma join_ends l : l <> [] -> Forall one_word l -> hd 0 (join [44] l) = hd 0 (hd [] l) /\ last (join [44] l) 0 = last (last l []) 0.
Proof.
  induction l as [|x l IH]; intros Hne HF; [congruence|]. inversion HF as [|? ? Hx HF']; subst. destruct l as [|y l]; [auto|].
  change (join [44] (x :: y :: l)) with (x ++ [44] ++ join [44] (y :: l)).
  destruct IH as [I1 I2]; [discriminate|exact HF'|]. split.
  - destruct x as [|c x]; [destruct Hx; congruence|reflexivity].
  - inversion HF' as [|? ? Hy _]; subst. assert (Hj : join [44] (y :: l) <> []).
    { destruct Hy as [Hy _]. destruct y; [congruence|]. destruct l; discriminate. }
    destruct (exists_last Hj) as (j & z & Ej). rewrite Ej in *. rewrite last_last in I2.
    replace (x ++ [44] ++ j ++ [z]) with ((x ++ [44] ++ j) ++ [z]) by now rewrite <- !app_assoc. rewrite last_last. exact I2.
Qed.

Section Wire.
  Variable o : s_opts.
  Variable ord1 : hdict -> hdict.
  Hypothesis Ho1 : forall d, Permutation d (ord1 d).
  Variables (lc ld : option hdict) (d : hdict).
  Hypothesis Hinv : Inv lc ld.
  Hypothesis Hmsg : simple_message (o_request o) d.
  Hypothesis Hdates : dates_ok o d.

  Let W := wire o lc d.
  Let Hall : all_ok d := message_all_ok _ _ Hmsg.
  Definition wire_text : str := format_http1 (ord1 W) [10] [58] (lit "h") (lit "H/2").

  Lemma w_dict : is_dict (ord1 W).
  Proof. exact (is_dict_perm _ _ (wire_dict o lc d Hall) (Ho1 W)). Qed.

  Lemma w_in n v : In (n, v) (ord1 W) <-> In (n, v) W.
  Proof. split; intros H; [exact (Permutation_in _ (Permutation_sym (Ho1 W)) H)|exact (Permutation_in _ (Ho1 W) H)]. Qed.

  Lemma ref_words : Forall one_word (map ref_wire (snd (s_split o lc d 0))).
  Proof.
    apply Forall_forall. intros x Hx. apply in_map_iff in Hx as ([k v] & <- & Hin).
    destruct (f_ok o lc d Hall _ Hin) as (_ & H1 & H2 & _). cbn [fst] in *. unfold ref_wire. cbn [fst].
    destruct (str_eqb_spec k (lit ":host")) as [_|Hk].
    - split; [discriminate|]. intros c Hc. vm_compute in Hc. destruct Hc as [<-|[<-|[]]]; unfold white; lia.
    - destruct H2 as [H2|]; [|contradiction]. destruct H1 as [H1|[H1 _]]; [|contradiction].
      unfold ename. rewrite (simple_not_colon k H1). destruct (dget s_lookups k) as [x|] eqn:Ex.
      + destruct (lookup_facts k x Ex) as (_ & _ & _ & R4 & _ & _ & R7). split; [exact R4|]. intros c Hc. apply R7 in Hc. unfold white. lia.
      + split; [discriminate|]. destruct H1 as (_ & _ & H1). intros c [<-|Hc]; [unfold white; lia|]. now apply H1.
  Qed.

  Lemma ref_nonul : ~ In 0 (join [44] (map ref_wire (snd (s_split o lc d 0)))).
  Proof.
    intros Hin. apply join_in in Hin as [[E|[]]|(p & Hp & Hin)]; [discriminate|]. apply in_map_iff in Hp as ([k v] & <- & Hf).
    destruct (f_ok o lc d Hall _ Hf) as (_ & H1 & H2 & _). cbn [fst] in *. unfold ref_wire in Hin. cbn [fst] in Hin.
    destruct (str_eqb_spec k (lit ":host")) as [_|Hk]; [cbn in Hin; intuition discriminate|].
    destruct H2 as [H2|]; [|contradiction]. destruct H1 as [H1|[H1 _]]; [|contradiction].
    unfold ename in Hin. rewrite (simple_not_colon k H1) in Hin. destruct (dget s_lookups k) as [x|] eqn:Ex.
    - destruct (lookup_facts k x Ex) as (_ & _ & _ & _ & _ & _ & R7). apply R7 in Hin. lia.
    - destruct Hin as [E|Hin]; [discriminate|]. destruct H1 as (_ & _ & H1). apply H1 in Hin. tauto.
  Qed.

  Lemma ref_line : snd (s_split o lc d 0) <> [] -> one_line (join [44] (map ref_wire (snd (s_split o lc d 0)))).
  Proof.
    intros Hne. pose proof ref_words as HW. remember (map ref_wire (snd (s_split o lc d 0))) as l eqn:El.
    assert (Hl : l <> []) by (intros E; rewrite E in El; destruct (snd (s_split o lc d 0)); [congruence|discriminate]).
    destruct (join_ends l Hl HW) as [E1 E2]. split.
    - intros Hin. apply join_in in Hin as [[E|[]]|(p & Hp & Hin)]; [discriminate|]. rewrite Forall_forall in HW.
      apply HW in Hp as [_ Hp]. apply Hp in Hin. apply Hin. right. lia.
    - right. rewrite E1, E2. rewrite Forall_forall in HW. split.
      + destruct l as [|x l']; [congruence|]. cbn [hd]. destruct (HW x) as [X1 X2]; [now left|]. destruct x; [congruence|]. apply X2. now left.
      + destruct (exists_last Hl) as (l' & x & E). rewrite E, last_last. destruct (HW x) as [X1 X2]; [rewrite E; apply in_or_app; right; now left|].
        destruct (exists_last X1) as (x' & c & Ec). rewrite Ec, last_last. apply X2. rewrite Ec. apply in_or_app. right. now left.
  Qed.

  Lemma w_ordinary sp spd : (forall k, In k spd -> hd 0 k = 58 /\ (In k sp \/ two k)) -> simple_headers spd d ->
    ordinary_headers sp (ord1 W).
  Proof.
    intros Hsp HS n v Hin Hn. apply w_in in Hin. destruct (wire_in o lc d n v Hin) as [(k & v0 & H1 & H2 & H3)|(H1 & H2 & H3)].
    - destruct (s0_ok o lc d Hall _ H1) as (G1 & G2 & G3). cbn [fst] in *. subst n v. split; [now apply ename_header|].
      assert (Hks : ~ In k spd).
      { intros Hk. destruct (Hsp k Hk) as [Hc [Hk'|Hk']]; [|contradiction]. apply Hn. unfold ename. rewrite Hc. exact Hk'. }
      destruct (HS k v0 G1 Hks) as [_ HP]. unfold s_date_in. destruct (o_dates o) eqn:Eo; cbn [andb]; [|exact HP].
      destruct (mem_str_spec k s_date_hdrs) as [Hd|Hd]; [|exact HP].
      specialize (Hdates k v0 G1 Eo Hd). destruct (o_din o v0); [apply Hdates|exact HP].
    - subst n v. split.
      + split; [discriminate|]. split; [|cbn; intuition discriminate]. intros c Hc. vm_compute in Hc. repeat (destruct Hc as [<-|Hc]; [lia|]). destruct Hc.
      + intros x Hx. apply no_nul_piece in Hx; [|exact ref_nonul]. rewrite Hx. now apply ref_line.
  Qed.

  Lemma w_noh : ~ In (lit "h") (map fst (ord1 W)).
  Proof.
    intros Hin. apply in_map_iff in Hin as ([n v] & E & Hin). cbn [fst] in E. apply w_in in Hin.
    destruct (wire_in o lc d n v Hin) as [(k & v0 & H1 & H2 & _)|(_ & H2 & _)].
    - destruct (s0_ok o lc d Hall _ H1) as (_ & G2 & _). cbn [fst] in G2. apply ename_not_h in G2. congruence.
    - subst n. discriminate.
  Qed.

  Lemma w_notwo k : two k -> forall v, ~ In (k, v) (ord1 W).
  Proof. intros Ht v Hin. apply w_in in Hin. exact (two_not o lc d Hall k Ht v Hin). Qed.

  (** A colon header is always sent as it is. *)
  Lemma w_colon k v : In (k, v) d -> hd 0 k = 58 -> k <> lit ":host" -> ~ two k -> In (k, v) (ord1 W).
  Proof.
    intros Hin Hc Hh Ht. apply w_in. destruct (split_facts o lc d 0 _ _ (sf o lc d)) as (A & _).
    destruct (A _ Hin) as [Hs|[Hf|Hi]].
    - pose proof (wire_sent o lc d k v Hs) as Hw. unfold ename in Hw. rewrite Hc in Hw. cbn [N.eqb Pos.eqb] in Hw.
      unfold s_date_in in Hw. replace (mem_str k s_date_hdrs) with false in Hw; [now rewrite andb_false_r in Hw|].
      destruct (mem_str_spec k s_date_hdrs) as [Hd|]; [|reflexivity]. exfalso.
      unfold s_date_hdrs in Hd. cbn [In] in Hd. destruct Hd as [<-|[<-|[<-|[<-|[]]]]]; discriminate.
    - destruct (f_ok o lc d Hall _ Hf) as (_ & _ & [G|G] & _); contradiction.
    - exfalso. apply Ht. cbn [fst] in Hi. unfold s_ignore_hdrs in Hi. cbn [In] in Hi. unfold two. intuition.
  Qed.

  Lemma w_names k : In k (map fst (ord1 W)) -> hd 0 k = 58 -> In k (map fst d).
  Proof.
    intros Hin Hc. apply in_map_iff in Hin as ([n v] & E & Hin). cbn [fst] in E. subst n. apply w_in in Hin.
    destruct (wire_in o lc d k v Hin) as [(k0 & v0 & H1 & H2 & _)|(_ & H2 & _)]; [|subst k; discriminate].
    destruct (s0_ok o lc d Hall _ H1) as (G1 & G2 & _). cbn [fst] in *.
    destruct G2 as [G2|[G2 _]].
    - exfalso. subst k. unfold ename in Hc. rewrite (simple_not_colon k0 G2) in Hc. destruct (dget s_lookups k0) as [x|] eqn:Ex; [|discriminate].
      destruct (lookup_facts k0 x Ex) as (_ & R2 & _). contradiction.
    - subst k. unfold ename. rewrite G2. cbn. apply in_map_iff. exists (k0, v0). auto.
  Qed.

  Lemma parse_ok : exists P, parse_http1 wire_text (o_request o) (lit "h") = Ok P /\ is_dict P /\
    (exists v, In (lit ":version", v) P) /\ (forall n, ~ two n -> dget P n = dget W n) /\
    (forall n v, In (n, v) P -> two n \/ In (n, v) W).
  Proof.
    assert (Hno : forall n, two n -> dget (ord1 W) n = None).
    { intros n Hn. apply dget_none. intros Hin. apply in_map_iff in Hin as ([k v] & E & Hin). cbn [fst] in E. subst k. now apply (w_notwo n Hn v). }
    assert (Hempty : forall c : N, In c [] -> white c /\ c <> 10) by (intros c []).
    assert (HWW : forall n, dget (ord1 W) n = dget W n) by (intros n; apply dget_perm; [exact (wire_dict o lc d Hall)|apply Ho1]).
    unfold wire_text. pose proof Hmsg as Hm0. unfold simple_message in Hm0.
    remember (o_request o) as b eqn:Eb in Hm0 |- *. clear Eb. destruct b.
    - destruct Hm0 as (HN & (m & Hm & Hmw) & (p & Hp & Hpw) & HS).
      destruct (c31_request [] [] (lit "h") (lit "H/2") Hempty Hempty h_ok (ord1 W)) as (P & E & HD & Hv & HL).
      + split; [exact w_dict|]. split; [|split; [|split; [|split; [exact w_noh|]]]].
        * exists m. split; [|exact Hmw]. apply w_colon; [exact Hm|reflexivity|discriminate|intros [Et|Et]; discriminate].
        * exists p. split; [|exact Hpw]. apply w_colon; [exact Hp|reflexivity|discriminate|intros [Et|Et]; discriminate].
        * intros v Hv. exfalso. apply (w_notwo (lit ":version") (or_introl eq_refl) v Hv).
        * apply (w_ordinary _ _ ) with (2 := HS). cbn [In]. unfold two.
          intros k [<-|[<-|[<-|[<-|[]]]]]; (split; [reflexivity|]); tauto.
      + discriminate.
      + apply word_line, h2_word.
      + exists P. split; [exact E|]. split; [exact HD|]. split; [eexists; apply dget_in; exact Hv|].
        assert (HL2 : forall n, ~ two n -> dget P n = dget W n).
        { intros n Hn. rewrite HL, HWW; [reflexivity|]. intros En. apply Hn. now left. }
        split; [exact HL2|]. intros n v Hin. destruct (mem_str_spec n [lit ":version"; lit ":status-text"]) as [Ht|Ht].
        * left. cbn [In] in Ht. unfold two. intuition.
        * right. apply dget_in. rewrite <- HL2; [now apply in_dget|]. intros [Et|Et]; apply Ht; cbn; auto.
    - destruct Hm0 as (HN & Hnm & Hnh & (s & Hs & Hsw) & HS).
      destruct (c31_response [] [] (lit "h") (lit "H/2") Hempty Hempty h_ok (ord1 W)) as (P & E & HD & Hv & Ht & HL).
      + split; [exact w_dict|]. split; [|split; [|split; [|split; [|split; [exact w_noh|split]]]]].
        * intros Hin. apply Hnm. now apply w_names.
        * exists s. split; [|exact Hsw]. apply w_colon; [exact Hs|reflexivity|discriminate|intros [Et|Et]; discriminate].
        * intros v Hv. exfalso. apply (w_notwo (lit ":version") (or_introl eq_refl) v Hv).
        * intros v Hv. exfalso. apply (w_notwo (lit ":status-text") (or_intror eq_refl) v Hv).
        * intros Hin. apply Hnh. now apply w_names.
        * apply (w_ordinary _ _ ) with (2 := HS). cbn [In]. unfold two.
          intros k [<-|[<-|[<-|[]]]]; (split; [reflexivity|]); tauto.
      + apply h2_word.
      + exists P. split; [exact E|]. split; [exact HD|]. split; [eexists; apply dget_in; exact Hv|].
        assert (HL2 : forall n, ~ two n -> dget P n = dget W n).
        { intros n Hn. rewrite HL, HWW; [reflexivity| |]; intros En; apply Hn; [now left|now right]. }
        split; [exact HL2|]. intros n v Hin. destruct (mem_str_spec n [lit ":version"; lit ":status-text"]) as [Htw|Htw].
        * left. cbn [In] in Htw. unfold two. intuition.
        * right. apply dget_in. rewrite <- HL2; [now apply in_dget|]. intros [Et|Et]; apply Htw; cbn; auto.
  Qed.
End Wire.

Lemma parse_snoc t b host : parse_http1 (t ++ [10]) b host = parse_http1 t b host.
Proof. unfold parse_http1, parse_http1_in. now rewrite strip_snoc. Qed.

(** A message coder carries a text if it gives it back, perhaps without the
    final newline. *)
Definition carries_text (o : s_opts) (m : str) : Prop :=
  exists t, o_dec o (o_enc o m) = Ok t /\ (t = m \/ m = t ++ [10]).

Lemma message_ok o ord1 ord2 lc ld d : (forall d, Permutation d (ord1 d)) -> (forall d, Permutation d (ord2 d)) ->
  Inv lc ld -> simple_message (o_request o) d -> dates_ok o d ->
  carries_text o (wire_text o ord1 lc d) ->
  s_compress o ord1 lc d = Ok (Some d, o_enc o (wire_text o ord1 lc d)) /\
  exists e out, s_decompress o ord2 ld (o_enc o (wire_text o ord1 lc d)) = Ok (Some e, out) /\
    Inv (Some d) (Some e) /\ arrives d out.
Proof.
  intros H1 H2 HI HM HD (t & Et & Ht). pose proof (message_all_ok _ _ HM) as HA. split.
  - now apply compress_ok.
  - destruct (parse_ok o ord1 H1 lc d HM HD) as (P & EP & P1 & P2 & P3 & P4).
    apply (decompress_ok o ord2 H2 lc ld d HI HA HD P P1 P2 P3 P4 _ t Et).
    destruct Ht as [->|E]; [exact EP|]. rewrite E in EP. now rewrite parse_snoc in EP.
Qed.

Lemma session_ok o ord (good : hdict -> Prop) : any_order ord ->
  (forall d, good d -> simple_message (o_request o) d /\ dates_ok o d) ->
  (forall i lc d, match lc with None => True | Some c => good c end -> good d -> carries_text o (wire_text o (ord i) lc d)) ->
  forall msgs i lc ld, Forall good msgs -> match lc with None => True | Some c => good c end -> Inv lc ld ->
  exists outs, s_session o ord i lc ld msgs = Ok outs /\ Forall2 arrives msgs outs.
Proof.
  intros Ho Hg Hc. induction msgs as [|d msgs IH]; intros i lc ld HF Hlc HI; [exists []; split; [reflexivity|constructor]|].
  inversion HF as [|? ? Hd HF']; subst. destruct (Hg d Hd) as [G1 G2].
  destruct (message_ok o (ord i) (ord (S i)) lc ld d (Ho i) (Ho (S i)) HI G1 G2 (Hc i lc d Hlc Hd)) as (E1 & e & out & E2 & HI' & HA).
  destruct (IH (S (S i)) (Some d) (Some e) HF' Hd HI') as (outs & E3 & HF2).
  exists (out :: outs). cbn [s_session]. rewrite E1. cbn [bind]. rewrite E2. cbn [bind]. rewrite E3. split; [reflexivity|]. now constructor.
Qed.

(** ** Seven-bit packing *)

Lemma skip1_bits8 c : skipn 1 (bits_of 8 c) = bits_of 7 c.
Proof. reflexivity. Qed.

Definition seven_bits (text : str) : list bool := flat_map (bits_of 7) text.

Lemma seven_bits_length text : length (seven_bits text) = (7 * length text)%nat.
Proof. unfold seven_bits. induction text as [|c t IH]; [reflexivity|]. cbn [flat_map]. rewrite app_length, bits_of_length, IH. cbn [length]. lia. Qed.

Lemma bits8_7 c : c < 128 -> bits_of 8 c = false :: bits_of 7 c.
Proof. intros H. cbn [bits_of]. f_equal. apply (testbit_high c 7); [exact H|cbn; lia]. Qed.

Lemma firstn_len {A} (a b : list A) n : length a = n -> firstn n (a ++ b) = a.
Proof. intros <-. rewrite firstn_app, Nat.sub_diag, firstn_O, app_nil_r. apply firstn_all. Qed.
Lemma skipn_len {A} (a b : list A) n : length a = n -> skipn n (a ++ b) = b.
Proof. intros <-. rewrite skipn_app, Nat.sub_diag, skipn_all. reflexivity. Qed.

Lemma chunks_app text rest : Forall (fun c => c < 128) text -> forall fuel, (length (seven_bits text ++ rest) <= fuel)%nat ->
  exists f', (length rest <= f')%nat /\ seven_chunks fuel (seven_bits text ++ rest) = bits_of_bytes text ++ seven_chunks f' rest.
Proof.
  induction 1 as [|c text Hc HF IH]; intros fuel Hf; [exists fuel; auto|].
  unfold seven_bits in *. cbn [flat_map] in *. rewrite <- app_assoc in *. rewrite app_length, bits_of_length in Hf.
  destruct fuel as [|fuel]; [lia|]. cbn [seven_chunks].
  destruct (IH fuel) as (f' & Hf' & E); [lia|].
  destruct (bits_of 7 c ++ flat_map (bits_of 7) text ++ rest) as [|b l] eqn:El; [cbn in El; discriminate|]. rewrite <- El.
  rewrite firstn_len, skipn_len by apply bits_of_length. rewrite E. exists f'. split; [exact Hf'|].
  unfold bits_of_bytes. cbn [flat_map]. rewrite bits8_7 by exact Hc. now rewrite <- !app_assoc.
Qed.

Lemma pad7 n : pad_len (7 * n) = (n mod 8)%nat.
Proof.
  unfold pad_len. assert (n = 8 * (n / 8) + n mod 8)%nat by (apply Nat.div_mod; lia).
  assert (n mod 8 < 8)%nat by (apply Nat.mod_upper_bound; lia). set (r := (n mod 8)%nat) in *. set (q := (n / 8)%nat) in *.
  replace (7 * n)%nat with (7 * r + (7 * q) * 8)%nat by lia. rewrite Nat.mod_add by lia.
  do 8 (destruct r as [|r]; [reflexivity|]). lia.
Qed.

Lemma removelast_snoc {A} (l : list A) x : removelast (l ++ [x]) = l.
Proof. rewrite removelast_app by discriminate. cbn. apply app_nil_r. Qed.

Lemma seven_decode_encode text : Forall (fun c => c < 128) text ->
  seven_decode (seven_encode text) = if (length text mod 8 =? 0)%nat then removelast text else text.
Proof.
  intros HF. unfold seven_decode, seven_encode. fold (seven_bits text).
  change (flat_map (fun c => skipn 1 (bits_of 8 c)) text) with (seven_bits text).
  destruct (bytes_of_bits_spec (seven_bits text)) as [E _]. rewrite E. rewrite seven_bits_length, pad7.
  set (pad := repeat false (length text mod 8)).
  destruct (chunks_app text pad HF (length (seven_bits text ++ pad))) as (f' & Hf' & E2); [lia|]. rewrite E2.
  assert (HB : is_bytes text) by (eapply Forall_impl; [|exact HF]; cbn; lia).
  destruct (Nat.eqb_spec (length text mod 8) 0) as [E0|E0].
  - unfold pad. rewrite E0. cbn [repeat]. replace (seven_chunks f' []) with (@nil bool) by now destruct f'.
    rewrite app_nil_r, bytes_of_bits_of_bytes by exact HB. reflexivity.
  - assert (Hlt : (length text mod 8 < 8)%nat) by (apply Nat.mod_upper_bound; lia).
    assert (E3 : seven_chunks f' pad = false :: pad).
    { unfold pad in *. rewrite repeat_length in Hf'. destruct f' as [|f']; [lia|].
      assert (E4 : firstn 7 (repeat false (length text mod 8)) = repeat false (length text mod 8)) by (apply firstn_all2; rewrite repeat_length; lia).
      assert (E5 : skipn 7 (repeat false (length text mod 8)) = []) by (apply skipn_all2; rewrite repeat_length; lia).
      destruct (repeat false (length text mod 8)) as [|b l] eqn:El; [destruct (length text mod 8)%nat; [lia|discriminate]|].
      cbn [seven_chunks]. rewrite E4, E5. replace (seven_chunks f' []) with (@nil bool) by now destruct f'. now rewrite app_nil_r. }
    rewrite E3.
    replace (bytes_of_bits (bits_of_bytes text ++ false :: pad)) with (text ++ [0]); [apply removelast_snoc|].
    symmetry. apply bits_of_bytes_inj; [apply bytes_of_bits_spec| |].
    + apply Forall_app. split; [exact HB|]. constructor; [reflexivity|constructor].
    + destruct (bytes_of_bits_spec (bits_of_bytes text ++ false :: pad)) as [E4 _]. rewrite E4, bits_of_bytes_app, <- app_assoc. f_equal.
      rewrite app_length, bits_of_bytes_length. cbn [length]. unfold pad. rewrite repeat_length.
      set (r := (length text mod 8)%nat) in *. unfold pad_len.
      replace (8 * length text + S r)%nat with (S r + length text * 8)%nat by lia. rewrite Nat.mod_add by lia.
      clearbody r. clear - E0 Hlt. do 8 (destruct r as [|r]; [try reflexivity; lia|]). lia.
Qed.

(** Seven-bit texts ending with a newline are carried. *)
Lemma seven_carries b mx m : Forall (fun c => c < 128) m -> (exists m', m = m' ++ [10]) -> carries_text (opts_seven b mx) m.
Proof.
  intros HF [m' Em]. unfold carries_text, opts_seven. cbn [o_dec o_enc]. eexists. split; [reflexivity|].
  rewrite seven_decode_encode by exact HF. destruct (Nat.eqb _ _); [right|now left]. rewrite Em, removelast_snoc. reflexivity.
Qed.

(** The text on the wire is seven-bit if the headers are. *)
Definition small (s : str) : Prop := Forall (fun c => c < 128) s.

Lemma small_app a b : small a -> small b -> small (a ++ b).
Proof. intros. apply Forall_app. auto. Qed.

Lemma small_lit s : forallb (fun c => c <? 128) s = true -> small s.
Proof. intros H. apply Forall_forall. intros c Hc. rewrite forallb_forall in H. apply N.ltb_lt. now apply H. Qed.

Lemma small_get d k dflt : small dflt -> (forall k v, In (k, v) d -> small v) -> small (get_or d k dflt).
Proof. intros H1 H2. apply get_or_in; [exact H1|]. intros v Hv. now apply (H2 k). Qed.

Lemma format_small d : (forall k v, In (k, v) d -> small k /\ small v) -> small (format_http1 d [10] [58] (lit "h") (lit "H/2")).
Proof.
  intros H. assert (HV : forall k v, In (k, v) d -> small v) by (intros k v Hin; now apply (H k v)).
  assert (HB : forall avoid, small (flat_map (fun kv : str * str => if mem_str (fst kv) avoid then [] else h1_header [10] [58] (lit "h") kv) d ++ [10])).
  { intros avoid. apply small_app; [|repeat constructor]. apply Forall_flat_map, Forall_forall. intros [k v] Hin.
    destruct (mem_str (fst (k, v)) avoid); [constructor|]. destruct (H k v Hin) as [H1 H2]. unfold h1_header. cbn [fst snd].
    apply Forall_flat_map, Forall_forall. intros x Hx. apply small_app; [destruct (str_eqb k (lit ":host")); [apply small_lit; reflexivity|exact H1]|].
    apply small_app; [repeat constructor|]. apply small_app; [|repeat constructor].
    apply Forall_forall. intros c Hc. unfold small in H2. rewrite Forall_forall in H2. apply H2. eapply split_on_in; eauto. }
  unfold format_http1. destruct (din d (lit ":method")); apply small_app; try apply HB;
    repeat apply small_app; try (apply small_get; [|exact HV]); apply small_lit; reflexivity.
Qed.

Lemma format_newline d : exists m, format_http1 d [10] [58] (lit "h") (lit "H/2") = m ++ [10].
Proof. unfold format_http1. destruct (din d (lit ":method")); eexists; rewrite app_assoc; reflexivity. Qed.

Lemma ename_small k : small k -> small (ename k).
Proof.
  intros H. unfold ename. destruct (hd 0 k =? 58); [exact H|]. destruct (dget s_lookups k) as [x|] eqn:E.
  - destruct (lookup_facts k x E) as (_ & _ & _ & _ & _ & _ & R7). apply Forall_forall. intros c Hc. apply R7 in Hc. lia.
  - constructor; [lia|exact H].
Qed.

Lemma ascii_small d k v : ascii_headers d -> In (k, v) d -> small k /\ small v.
Proof. intros H Hin. destruct (H k v Hin). split; apply Forall_forall; assumption. Qed.

Lemma wire_small o ord1 lc d : (forall d, Permutation d (ord1 d)) -> o_dates o = false ->
  all_ok d -> ascii_headers d -> small (wire_text o ord1 lc d).
Proof.
  intros Ho Hd HA Hs. apply format_small. intros k v Hin. apply (Permutation_in _ (Permutation_sym (Ho _))) in Hin.
  destruct (wire_in o lc d k v Hin) as [(k0 & v0 & H1 & -> & ->)|(_ & -> & ->)].
  - destruct (s0_ok o lc d HA _ H1) as (G1 & _). destruct (ascii_small d k0 v0 Hs G1) as [S1 S2]. split; [now apply ename_small|].
    unfold s_date_in. now rewrite Hd.
  - split; [apply small_lit; reflexivity|]. apply Forall_forall. intros c Hc. apply join_in in Hc as [[<-|[]]|(p & Hp & Hc)]; [lia|].
    apply in_map_iff in Hp as ([k v] & <- & Hf). destruct (f_ok o lc d HA _ Hf) as (G1 & _).
    destruct (ascii_small d k v Hs G1) as [S1 _]. unfold ref_wire in Hc. cbn [fst] in Hc.
    destruct (str_eqb k (lit ":host")); [vm_compute in Hc; repeat (destruct Hc as [<-|Hc]; [lia|]); destruct Hc|].
    apply ename_small in S1. unfold small in S1. rewrite Forall_forall in S1. now apply S1.
Qed.
