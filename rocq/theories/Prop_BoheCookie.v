(** * Property C90: bohe's cookies. *)
From Coq Require Import String List NArith ZArith Bool Arith Lia ZifyN ZifyNat.
From Verif Require Import NBits Bits BB_Read Small_Model Prop_Small Bohe_Model Bohe_Proofs Prop_Bohe Prop_BoheEnc BoheCookie_Model PyBase PyStr.
Import ListNotations.
Open Scope N_scope.
Open Scope py_scope.

(** ** Specification *)

(** A text of hexadecimal digits, two for each octet. *)
Definition hex_value (c x : N) : Prop :=
  nth_error (lit "0123456789abcdef") (N.to_nat x) = Some c \/ nth_error (lit "0123456789ABCDEF") (N.to_nat x) = Some c.
Inductive hexadecimal : str -> str -> Prop :=
| hex_nil : hexadecimal [] []
| hex_pair a b x y s t : hex_value a x -> hex_value b y -> hexadecimal s t -> hexadecimal (a :: b :: s) (16 * x + y :: t).

(** Base64: six bits a digit, and = until the length is a multiple of four. *)
Definition b64_alphabet : str := lit "ABCDEFGHIJKLMNOPQRSTUVWXYZabcdefghijklmnopqrstuvwxyz0123456789+/".
Definition base64 (s out : str) : Prop := exists body ds pad,
  s = body ++ repeat 61 pad /\ Forall2 (fun c d => nth_error b64_alphabet (N.to_nat d) = Some c) body ds /\
  (pad <= 2)%nat /\ ((length body + pad) mod 4 = 0)%nat /\
  is_bytes out /\ length out = (6 * length body / 8)%nat /\ bits_of_bytes out = firstn (8 * length out) (flat_map (bits_of 6) ds).

(** What a value becomes: digits are taken for octets; one newline may follow
    base64 digits. *)
Definition any_hex (v : str) : Prop := exists t out, hexadecimal t out /\ (v = t \/ v = t ++ [10]).
Definition any_b64 (v : str) : Prop := exists t out, base64 t out /\ (v = t \/ v = t ++ [10]).
Inductive plain_value (v : str) : str -> Prop :=
| plain_hex out : hexadecimal v out -> plain_value v out
| plain_b64 t out : ~ any_hex v -> base64 t out -> v = t \/ v = t ++ [10] -> plain_value v out
| plain_text : ~ any_hex v -> ~ any_b64 v -> plain_value v v.

(** Cookie: for each name, an underscore, name and value with their lengths. *)
Inductive pair_layout : str * option str -> str -> Prop :=
| pair_value k v x kn xn : number (lenN k) kn -> plain_value v x -> number (lenN x) xn ->
    pair_layout (k, Some v) (lit "_" ++ kn ++ k ++ xn ++ x)
| pair_none k kn : number (lenN k) kn -> pair_layout (k, None) (lit "_" ++ kn ++ k ++ [0]).

(** Set-cookie: for each name, a full stop, name and value with their lengths, path
    and domain with theirs in two octets, and the age or else the date. *)
Definition in_two_octets (n : N) : str := [n / 256; n mod 256].
Inductive morsel_layout (L : library) : str * morsel -> str -> Prop :=
| morsel_in n m x nn xn age : number (lenN n) nn -> plain_value (m_value m) x -> number (lenN x) xn ->
    lenN (m_path m) < 65536 -> lenN (m_domain m) < 65536 ->
    (m_maxage m <> [] -> encoded L (lit "age") (m_maxage m) = Ok age) -> (m_maxage m = [] -> encoded L (lit "date") (m_expires m) = Ok age) ->
    morsel_layout L (n, m) (lit "." ++ nn ++ n ++ xn ++ x ++ in_two_octets (lenN (m_path m)) ++ m_path m ++
                            in_two_octets (lenN (m_domain m)) ++ m_domain m ++ age).

(** ** Values *)

Lemma in_range (P : N -> bool) n : forallb P (map N.of_nat (seq 0 n)) = true -> forall x, x < N.of_nat n -> P x = true.
Proof.
  intros H x Hx. rewrite forallb_forall in H. apply H. apply in_map_iff. exists (N.to_nat x). split; [lia|]. apply in_seq. lia.
Qed.
Lemma nth_lt (l : str) x c : nth_error l (N.to_nat x) = Some c -> x < lenN l.
Proof. intros H. assert (N.to_nat x < length l)%nat by (apply nth_error_Some; congruence). unfold lenN. lia. Qed.

Lemma hex_value_iff c x : hex_value c x <-> hex_digit c = Some x.
Proof.
  split.
  - assert (F : forall l, forallb (fun x => match nth_error l (N.to_nat x) with Some c => match hex_digit c with Some y => y =? x | None => false end | None => false end) (map N.of_nat (seq 0 16)) = true ->
        lenN l = 16 -> nth_error l (N.to_nat x) = Some c -> hex_digit c = Some x).
    { intros l H Hl E. pose proof (nth_lt _ _ _ E) as Hx. pose proof (in_range _ _ H x ltac:(lia)) as Q. cbv beta in Q. rewrite E in Q.
      destruct (hex_digit c) as [y|]; [|discriminate]. apply N.eqb_eq in Q. congruence. }
    intros [E|E]; revert E; apply F; vm_compute; reflexivity.
  - unfold hex_digit. intros H.
    assert (C : (48 <= c <= 57 /\ x = c - 48) \/ (97 <= c <= 102 /\ x = c - 87) \/ (65 <= c <= 70 /\ x = c - 55)).
    { destruct (N.leb_spec 48 c), (N.leb_spec c 57); cbn [andb] in H; try (left; split; [lia|congruence]);
      destruct (N.leb_spec 97 c), (N.leb_spec c 102); cbn [andb] in H; try (right; left; split; [lia|congruence]);
      destruct (N.leb_spec 65 c), (N.leb_spec c 70); cbn [andb] in H; try (right; right; split; [lia|congruence]); discriminate. }
    destruct C as [[C ->]|[[C ->]|[C ->]]].
    + left. assert (E : c = 48 \/ c = 49 \/ c = 50 \/ c = 51 \/ c = 52 \/ c = 53 \/ c = 54 \/ c = 55 \/ c = 56 \/ c = 57) by lia.
      repeat (destruct E as [->|E]; [reflexivity|]). subst c. reflexivity.
    + left. assert (E : c = 97 \/ c = 98 \/ c = 99 \/ c = 100 \/ c = 101 \/ c = 102) by lia. repeat (destruct E as [->|E]; [reflexivity|]). subst c. reflexivity.
    + right. assert (E : c = 65 \/ c = 66 \/ c = 67 \/ c = 68 \/ c = 69 \/ c = 70) by lia. repeat (destruct E as [->|E]; [reflexivity|]). subst c. reflexivity.
Qed.
Lemma b64_range c : is_b64 c = true -> c < 123.
Proof.
  unfold is_b64, b64_digit. destruct (N.leb_spec 65 c), (N.leb_spec c 90); cbn [andb]; try lia;
    destruct (N.leb_spec 97 c), (N.leb_spec c 122); cbn [andb]; try lia; destruct (N.leb_spec 48 c), (N.leb_spec c 57); cbn [andb]; try lia;
    destruct (N.eqb_spec c 43); try lia; destruct (N.eqb_spec c 47); try lia; discriminate.
Qed.
Lemma b64_value_iff c x : nth_error b64_alphabet (N.to_nat x) = Some c <-> b64_digit c = Some x.
Proof.
  split.
  - intros E. pose proof (nth_lt _ _ _ E) as Hx. change (lenN b64_alphabet) with (N.of_nat 64) in Hx.
    assert (H : forallb (fun x => match nth_error b64_alphabet (N.to_nat x) with Some c => match b64_digit c with Some y => y =? x | None => false end | None => false end) (map N.of_nat (seq 0 64)) = true) by (vm_compute; reflexivity).
    pose proof (in_range _ _ H x Hx) as Q. cbv beta in Q. rewrite E in Q. destruct (b64_digit c) as [y|]; [|discriminate]. apply N.eqb_eq in Q. congruence.
  - intros E. assert (Hc : c < 123) by (apply b64_range; unfold is_b64; now rewrite E).
    assert (H : forallb (fun c => match b64_digit c with Some x => match nth_error b64_alphabet (N.to_nat x) with Some c' => c' =? c | None => false end | None => true end) (map N.of_nat (seq 0 123)) = true) by (vm_compute; reflexivity).
    pose proof (in_range _ _ H c Hc) as Q. cbv beta in Q. rewrite E in Q. destruct (nth_error b64_alphabet (N.to_nat x)) as [c'|]; [|discriminate]. apply N.eqb_eq in Q. congruence.
Qed.

Lemma hexadecimal_ok s out : hexadecimal s out -> hex_pairs s = true /\ unhex s = Ok out /\ length s = (2 * length out)%nat.
Proof.
  induction 1 as [|a b x y s t Ha Hb Hs (IH1 & IH2 & IH3)]; [auto|]. apply hex_value_iff in Ha, Hb. cbn [hex_pairs unhex length]. unfold is_hex. rewrite Ha, Hb, IH1, IH2. cbn [bind andb].
  split; [reflexivity|]. split; [reflexivity|lia].
Qed.
Lemma pair_ind {A} (P : list A -> Prop) : P [] -> (forall a, P [a]) -> (forall a b l, P l -> P (a :: b :: l)) -> forall l, P l.
Proof. intros H0 H1 H2. fix F 1. intros [|a [|b l]]; [exact H0|apply H1|apply H2, F]. Qed.
Lemma hex_pairs_iff s : hex_pairs s = true <-> exists out, hexadecimal s out.
Proof.
  split; [|intros (out & H); now apply hexadecimal_ok in H]. induction s as [|a|a b s IH] using pair_ind; intros H.
  - exists []. constructor.
  - discriminate.
  - cbn [hex_pairs] in H. apply andb_true_iff in H as [H Hs]. apply andb_true_iff in H as [Ha Hb]. unfold is_hex in Ha, Hb.
    destruct (hex_digit a) as [x|] eqn:Ea, (hex_digit b) as [y|] eqn:Eb; try discriminate. destruct (IH Hs) as [t Ht]. exists (16 * x + y :: t).
    constructor; [now apply hex_value_iff|now apply hex_value_iff|exact Ht].
Qed.

Lemma dollar_spec v : (exists t, v = t ++ [10] /\ dollar v = t) \/ (dollar v = v /\ forall t, v <> t ++ [10]).
Proof.
  unfold dollar. destruct (rev v) as [|c r] eqn:E.
  - right. split; [reflexivity|]. intros t ->. rewrite rev_app_distr in E. discriminate.
  - assert (Ev : v = rev r ++ [c]) by (rewrite <- (rev_involutive v), E; reflexivity). destruct (N.eqb_spec c 10) as [->|Hc].
    + left. exists (rev r). auto.
    + right. split.
      * destruct c as [|p]; [reflexivity|]. do 4 (destruct p as [p|p|]; try reflexivity). congruence.
      * intros t H. rewrite Ev in H. apply app_inj_tail in H as [_ H]. congruence.
Qed.

Lemma hex_dollar v : hex_pairs (dollar v) = true <-> any_hex v.
Proof.
  rewrite hex_pairs_iff. unfold any_hex. destruct (dollar_spec v) as [(t & Ev & ->)|[-> H]].
  - subst v. split; [intros (out & H); exists t, out; auto|]. intros (t' & out & H & [E|E]).
    + exfalso. subst t'. apply hexadecimal_ok in H as (H & _). clear - H. induction t as [|a|a b t IH] using pair_ind; cbn in H; try discriminate.
      * unfold is_hex in H. destruct (hex_digit a); discriminate.
      * apply andb_true_iff in H as [_ H]. auto.
    + apply app_inj_tail in E as [-> _]. eauto.
  - split; [intros (out & Hv); exists v, out; auto|]. intros (t & out & Ht & [->|E]); [eauto|]. exfalso. eapply H, E.
Qed.

(** *** Base64 *)
Lemma four_ind {A} (P : list A -> Prop) : P [] -> (forall a, P [a]) -> (forall a b, P [a; b]) -> (forall a b c, P [a; b; c]) ->
  (forall a b c d l, P l -> P (a :: b :: c :: d :: l)) -> forall l, P l.
Proof. intros H0 H1 H2 H3 H4. fix F 1. intros [|a [|b [|c [|d l]]]]; [exact H0|apply H1|apply H2|apply H3|apply H4, F]. Qed.

Lemma b64_61 : is_b64 61 = false.
Proof. reflexivity. Qed.
Lemma groups_iff s : b64_groups s = true <-> exists body pad, s = body ++ repeat 61 pad /\ Forall (fun c => is_b64 c = true) body /\
  (pad <= 2)%nat /\ ((length body + pad) mod 4 = 0)%nat.
Proof.
  split.
  - induction s as [|a|a b|a b c|a b c d s IH] using four_ind; try discriminate.
    + intros _. exists [], 0%nat. repeat split; [constructor|lia].
    + cbn [b64_groups]. intros H. apply andb_true_iff in H as [H Hr]. apply andb_true_iff in H as [Ha Hb]. destruct (is_b64 c) eqn:Ec, (is_b64 d) eqn:Ed; cbn [andb orb] in Hr.
      * destruct (IH Hr) as (body & pad & -> & Hb' & Hp & Hm). exists (a :: b :: c :: d :: body), pad. split; [reflexivity|]. split; [repeat (constructor; [assumption|]); exact Hb'|]. split; [exact Hp|].
        cbn [length Nat.add]. replace (S (S (S (S (length body + pad)))))%nat with (length body + pad + 1 * 4)%nat by lia. now rewrite Nat.mod_add by lia.
      * destruct s; [|discriminate]. apply N.eqb_eq in Hr. subst d. exists [a; b; c], 1%nat. repeat split; [repeat (constructor; [assumption|]); constructor|lia].
      * destruct s; [|discriminate]. apply andb_true_iff in Hr as [_ Hr]. apply N.eqb_eq in Hr. subst d. discriminate.
      * destruct s; [|discriminate]. apply andb_true_iff in Hr as [Hc Hr]. apply N.eqb_eq in Hr, Hc. subst c d. exists [a; b], 2%nat. repeat split; [repeat (constructor; [assumption|]); constructor|lia].
  - intros (body & pad & -> & Hb & Hp & Hm). revert Hb Hm. induction body as [|a|a b|a b c|a b c d body IH] using four_ind; intros Hb Hm.
    + destruct pad as [|[|[|pad]]]; [reflexivity|discriminate|discriminate|lia].
    + exfalso. destruct pad as [|[|[|pad]]]; [discriminate|discriminate|discriminate|lia].
    + inversion Hb as [|? ? H1 Hb1]; subst. inversion Hb1 as [|? ? H2 Hb2]; subst.
      destruct pad as [|[|[|pad]]]; [discriminate|discriminate| |lia]. cbn [repeat app b64_groups]. now rewrite H1, H2.
    + inversion Hb as [|? ? H1 Hb1]; subst. inversion Hb1 as [|? ? H2 Hb2]; subst. inversion Hb2 as [|? ? H3 Hb3]; subst.
      destruct pad as [|[|[|pad]]]; [discriminate| |discriminate|lia]. cbn [repeat app b64_groups]. now rewrite H1, H2, H3.
    + inversion Hb as [|? ? H1 Hb1]; subst. inversion Hb1 as [|? ? H2 Hb2]; subst. inversion Hb2 as [|? ? H3 Hb3]; subst. inversion Hb3 as [|? ? H4 Hb4]; subst.
      cbn [app b64_groups]. rewrite H1, H2, H3, H4. cbn [andb]. apply IH; [exact Hb4|]. cbn [length Nat.add] in Hm.
      replace (S (S (S (S (length body + pad)))))%nat with (length body + pad + 1 * 4)%nat in Hm by lia. now rewrite Nat.mod_add in Hm by lia.
Qed.

Lemma whole_ok fuel : forall l, (length l <= fuel)%nat -> is_bytes (whole_octets fuel l) /\ length (whole_octets fuel l) = (length l / 8)%nat /\
  bits_of_bytes (whole_octets fuel l) = firstn (8 * length (whole_octets fuel l)) l.
Proof.
  induction fuel as [|f IH]; intros l Hl; cbn [whole_octets].
  - destruct l; [|cbn in Hl; lia]. split; [constructor|]. split; reflexivity.
  - destruct (Nat.ltb_spec (length l) 8) as [H8|H8].
    + split; [constructor|]. split; [now rewrite Nat.div_small|reflexivity].
    + destruct (IH (skipn 8 l)) as (B & Len & Bits); [rewrite skipn_length; lia|]. set (o := whole_octets f (skipn 8 l)) in *. rewrite skipn_length in Len.
      assert (L8 : length (firstn 8 l) = 8%nat) by (rewrite firstn_length; lia). split; [|split].
      * constructor; [|exact B]. pose proof (val_of_bound (firstn 8 l)) as V. unfold lenN in V. rewrite L8 in V. exact V.
      * cbn [length]. rewrite Len. replace (length l) with (length l - 8 + 1 * 8)%nat at 2 by lia. rewrite Nat.div_add by lia. lia.
      * cbn [bits_of_bytes flat_map length]. change (flat_map (bits_of 8) o) with (bits_of_bytes o). rewrite Bits. rewrite <- L8 at 1. rewrite bits_of_val.
        replace (8 * S (length o))%nat with (8 + 8 * length o)%nat by lia. rewrite <- (firstn_skipn 8 l) at 3. rewrite firstn_app, L8.
        replace (8 + 8 * length o - 8)%nat with (8 * length o)%nat by lia. f_equal. symmetry. apply firstn_all2. lia.
Qed.
Lemma pad_bits pad : flat_map b64_bits (repeat 61 pad) = [].
Proof. induction pad; [reflexivity|exact IHpad]. Qed.
Lemma body_bits body ds : Forall2 (fun c d => nth_error b64_alphabet (N.to_nat d) = Some c) body ds -> flat_map b64_bits body = flat_map (bits_of 6) ds.
Proof.
  induction 1 as [|c d body ds H Hs IH]; [reflexivity|]. apply b64_value_iff in H. cbn [flat_map]. unfold b64_bits at 1. now rewrite H, IH.
Qed.
Lemma body_len body ds : Forall2 (fun c d => nth_error b64_alphabet (N.to_nat d) = Some c) body ds -> length (flat_map b64_bits body) = (6 * length body)%nat.
Proof.
  induction 1 as [|c d body ds H Hs IH]; [reflexivity|]. apply b64_value_iff in H. cbn [flat_map length]. rewrite app_length, IH. unfold b64_bits. rewrite H, bits_of_length. lia.
Qed.
Lemma base64_ok s out : base64 s out -> b64_groups s = true /\ a2b_base64 s = out.
Proof.
  intros (body & ds & pad & -> & Hd & Hp & Hm & Hb & Hl & Hbits). split.
  - apply groups_iff. exists body, pad. split; [reflexivity|]. split; [|auto]. clear - Hd. induction Hd as [|c d body ds H Hs IH]; constructor; [|exact IH].
    apply b64_value_iff in H. unfold is_b64. now rewrite H.
  - unfold a2b_base64. rewrite flat_map_app, pad_bits, app_nil_r. set (l := flat_map b64_bits body). destruct (whole_ok (length l) l (le_n _)) as (B & Len & Bits).
    apply bits_of_bytes_inj; [exact B|exact Hb|]. rewrite Bits, Hbits. rewrite Hl, Len. unfold l at 1. rewrite (body_len _ _ Hd). f_equal. now apply body_bits.
Qed.
Lemma groups_base64 s : b64_groups s = true <-> exists out, base64 s out.
Proof.
  split; [|intros (out & H); now apply base64_ok in H]. intros H. apply groups_iff in H as (body & pad & -> & Hb & Hp & Hm).
  assert (D : exists ds, Forall2 (fun c d => nth_error b64_alphabet (N.to_nat d) = Some c) body ds).
  { clear - Hb. induction Hb as [|c body Hc Hb (ds & IH)]; [exists []; constructor|]. unfold is_b64 in Hc. destruct (b64_digit c) as [d|] eqn:E; [|discriminate].
    exists (d :: ds). constructor; [now apply b64_value_iff|exact IH]. }
  destruct D as [ds D]. set (l := flat_map b64_bits body). destruct (whole_ok (length l) l (le_n _)) as (B & Len & Bits).
  exists (whole_octets (length l) l), body, ds, pad. split; [reflexivity|]. split; [exact D|]. split; [exact Hp|]. split; [exact Hm|]. split; [exact B|].
  split; [rewrite Len; unfold l at 1; rewrite (body_len _ _ D); reflexivity|]. rewrite Bits. f_equal. unfold l. now apply body_bits.
Qed.
Lemma groups_newline t : b64_groups (t ++ [10]) = false.
Proof.
  induction t as [|a|a b|a b c|a b c d t IH] using four_ind; try reflexivity.
  - cbn [app b64_groups]. change (is_b64 10) with false. rewrite andb_false_r. change (10 =? 61) with false. now rewrite !andb_false_r.
  - cbn [app b64_groups]. rewrite IH. destruct (is_b64 c && is_b64 d); [now rewrite andb_false_r|]. destruct t; now rewrite andb_false_r.
Qed.
Lemma b64_dollar v : b64_groups (dollar v) = true <-> any_b64 v.
Proof.
  rewrite groups_base64. unfold any_b64. destruct (dollar_spec v) as [(t & Ev & ->)|[-> H]].
  - subst v. split; [intros (out & H); exists t, out; auto|]. intros (t' & out & H & [E|E]).
    + exfalso. subst t'. apply base64_ok in H as (H & _). rewrite groups_newline in H. discriminate.
    + apply app_inj_tail in E as [-> _]. eauto.
  - split; [intros (out & Hv); exists v, out; auto|]. intros (t & out & Ht & [->|E]); [eauto|]. exfalso. eapply H, E.
Qed.

Lemma hex_newline t : hex_pairs (t ++ [10]) = false.
Proof.
  induction t as [|a|a b t IH] using pair_ind; [reflexivity| |].
  - cbn. now rewrite andb_false_r.
  - cbn [app hex_pairs]. now rewrite IH, andb_false_r.
Qed.

(** ** C90: values *)
Theorem C90_value : forall v out, attempt_decode v = Ok out <-> plain_value v out.
Proof.
  intros v out. unfold attempt_decode. destruct (hex_pairs (dollar v)) eqn:EH.
  - apply hex_dollar in EH. split.
    + unfold a2b_hex. destruct (Nat.even (length v)) eqn:Ee; [|discriminate]. intros E. destruct EH as (t & o & Ht & [-> | ->]).
      * apply plain_hex. pose proof (hexadecimal_ok _ _ Ht) as (_ & E' & _). now replace out with o by congruence.
      * exfalso. pose proof (hexadecimal_ok _ _ Ht) as (_ & _ & Hl). rewrite app_length, Hl in Ee. cbn [length] in Ee. rewrite Nat.add_comm in Ee. cbn [Nat.add] in Ee.
        rewrite Nat.even_succ, <- Nat.negb_even, Nat.even_mul in Ee. discriminate.
    + intros H. inversion H as [o Ho|t o Hn|Hn]; subst; try contradiction. apply hexadecimal_ok in Ho as (_ & Hu & Hl). unfold a2b_hex. rewrite Hl, Nat.even_mul. exact Hu.
  - assert (NH : ~ any_hex v) by (intros C; apply hex_dollar in C; congruence). destruct (b64_groups (dollar v)) eqn:EB.
    + apply b64_dollar in EB. rewrite ok_iff. split.
      * intros ->. destruct EB as (t & o & Ht & Hv). pose proof (base64_ok _ _ Ht) as [Hg Ho]. replace (dollar v) with t; [rewrite Ho; eapply plain_b64; eauto|].
        destruct (dollar_spec v) as [(t' & E & ->)|[-> E]].
        -- destruct Hv as [-> | ->]; [|now apply app_inj_tail in E]. subst t. rewrite groups_newline in Hg. discriminate.
        -- destruct Hv as [-> | ->]; [reflexivity|]. exfalso. eapply E. reflexivity.
      * intros H. inversion H as [o Ho|t o Hn Ht Hv|Hn Hb]; subst.
        -- exfalso. apply NH. exists v, out. auto.
        -- pose proof (base64_ok _ _ Ht) as [Hg Ho]. rewrite <- Ho. f_equal. destruct (dollar_spec v) as [(t' & E & ->)|[-> E]].
           ++ destruct Hv as [-> | ->]; [|now apply app_inj_tail in E]. subst t. rewrite groups_newline in Hg. discriminate.
           ++ destruct Hv as [-> | ->]; [reflexivity|]. exfalso. eapply E. reflexivity.
        -- contradiction.
    + assert (NB : ~ any_b64 v) by (intros C; apply b64_dollar in C; congruence). rewrite ok_iff. split.
      * intros ->. now apply plain_text.
      * intros H. inversion H as [o Ho|t o Hn Ht Hv|Hn Hb]; subst.
        -- exfalso. apply NH. exists v, out. auto.
        -- exfalso. apply NB. exists t, out. auto.
        -- reflexivity.
Qed.
Print Assumptions C90_value.

(** It raises exactly for hexadecimal digits with a newline behind them. *)
Theorem C90_value_raises : forall v e, attempt_decode v = Err e <-> e = TypeError /\ exists t out, hexadecimal t out /\ v = t ++ [10].
Proof.
  intros v e. unfold attempt_decode. destruct (hex_pairs (dollar v)) eqn:EH.
  - apply hex_dollar in EH. destruct EH as (t & o & Ht & [-> | ->]); pose proof (hexadecimal_ok _ _ Ht) as (Hp & Hu & Hl); unfold a2b_hex.
    + rewrite Hl, Nat.even_mul. cbn [Nat.even orb]. rewrite Hu. split; [discriminate|]. intros (_ & t' & o' & _ & E). subst t. rewrite hex_newline in Hp. discriminate.
    + rewrite app_length, Hl. cbn [length]. rewrite Nat.add_comm. cbn [Nat.add]. rewrite Nat.even_succ, <- Nat.negb_even, Nat.even_mul. cbn [Nat.even orb negb].
      split; [intros E; split; [congruence|eauto]|]. intros [-> _]. reflexivity.
  - split; [destruct (b64_groups (dollar v)); discriminate|]. intros (_ & t & o & Ht & E). assert (C : hex_pairs (dollar v) = true) by (apply hex_dollar; exists t, o; auto). congruence.
Qed.
Print Assumptions C90_value_raises.

(** ** C90: the two headers *)

Lemma ok_inv {A} (x y : A) : Ok x = Ok y -> y = x.
Proof. congruence. Qed.
Lemma pairs_iff l : forall out, enc_pairs l = Ok out <-> exists ps, Forall2 pair_layout l ps /\ out = concat ps.
Proof.
  induction l as [|[k vo] l IH]; intros out; cbn [enc_pairs].
  - rewrite ok_iff. split; [intros ->; exists []; split; [constructor|reflexivity]|intros (ps & H & ->); inversion H; reflexivity].
  - rewrite bind_iff. split.
    + intros (kl & Ek & H). apply bind_iff in H as (body & Eb & H). apply bind_iff in H as (rest & Er & H). apply IH in Er as (ps & Hps & ->). apply ok_inv in H. subst out. apply number_len in Ek.
      destruct vo as [v|].
      * apply bind_iff in Eb as (x & Ex & Eb). apply bind_iff in Eb as (xn & En & Eb). apply ok_inv in Eb. subst body. apply C90_value in Ex. apply number_len in En.
        exists ((lit "_" ++ kl ++ k ++ xn ++ x) :: ps). split; [constructor; [now apply pair_value|exact Hps]|]. cbn [concat]. rewrite <- !app_assoc. reflexivity.
      * rewrite number_0 in Eb. apply ok_inv in Eb. subst body. exists ((lit "_" ++ kl ++ k ++ [0]) :: ps). split; [constructor; [now apply pair_none|exact Hps]|].
        cbn [concat]. rewrite <- !app_assoc. reflexivity.
    + intros (ps & H & ->). inversion H as [|? p ? ps' Hp Hps]; subst. inversion Hp as [k' v x kn xn Hk Hv Hx|k' kn Hk]; subst; exists kn; (split; [now apply number_len|]); apply bind_iff.
      * exists (xn ++ x). split.
        -- apply bind_iff. exists x. split; [now apply C90_value|]. apply bind_iff. exists xn. split; [now apply number_len|reflexivity].
        -- apply bind_iff. exists (concat ps'). split; [apply IH; eauto|]. cbn [concat]. rewrite <- !app_assoc. reflexivity.
      * exists [0]. split; [reflexivity|]. apply bind_iff. exists (concat ps'). split; [apply IH; eauto|]. cbn [concat]. rewrite <- !app_assoc. reflexivity.
Qed.

Theorem C90_cookie : forall C L v out, encoded (with_cookies C L) (lit "cookie") v = Ok out <->
  exists ps, Forall2 pair_layout (cl_dict C v) ps /\ out = concat ps.
Proof. intros C L v out. apply pairs_iff. Qed.
Print Assumptions C90_cookie.

Theorem C90_cookie_raises : forall C L v e, encoded (with_cookies C L) (lit "cookie") v = Err e ->
  e = TypeError /\ exists k t out, In (k, Some (t ++ [10])) (cl_dict C v) /\ hexadecimal t out.
Proof.
  intros C L v e. change (encoded (with_cookies C L) (lit "cookie") v) with (enc_pairs (cl_dict C v)). induction (cl_dict C v) as [|[k vo] l IH]; cbn [enc_pairs]; [discriminate|].
  destruct (uvarint_of_ok (Z.of_nat (length k))) as (kl & -> & _). cbn [bind]. destruct vo as [w|].
  - destruct (attempt_decode w) as [x|e'] eqn:Ew; cbn [bind].
    + destruct (uvarint_of_ok (Z.of_nat (length x))) as (xl & -> & _). cbn [bind]. destruct (enc_pairs l) as [r|e'] eqn:El; cbn [bind]; [discriminate|]. intros E.
      destruct (IH E) as (He & k' & t & o & Hin & Ht). split; [exact He|]. exists k', t, o. split; [now right|exact Ht].
    + intros E. assert (e' = e) by congruence. subst e'. apply C90_value_raises in Ew as (-> & t & o & Ht & ->). split; [reflexivity|]. exists k, t, o. split; [now left|exact Ht].
  - rewrite number_0. cbn [bind]. destruct (enc_pairs l) as [r|e'] eqn:El; cbn [bind]; [discriminate|]. intros E.
    destruct (IH E) as (He & k' & t & o & Hin & Ht). split; [exact He|]. exists k', t, o. split; [now right|exact Ht].
Qed.
Print Assumptions C90_cookie_raises.

Lemma number_app a s ra : number a s -> forall b t rb, number b t -> s ++ ra = t ++ rb -> a = b /\ s = t /\ ra = rb.
Proof.
  intros Hs b t rb Ht E. apply number_of in Hs, Ht. destruct (uvarint_of_inj _ _ _ _ _ _ Hs Ht E) as [Hab ->].
  assert (a = b) by lia. subst b. split; [reflexivity|]. split; [|reflexivity]. now apply app_inv_tail in E.
Qed.
Lemma app_len_inv (a b ra rb : str) : lenN a = lenN b -> a ++ ra = b ++ rb -> a = b /\ ra = rb.
Proof. unfold lenN. revert b. induction a as [|x a IH]; intros [|y b] Hl E; cbn [length app] in *; try lia; [auto|]. destruct (IH b) as [-> ->]; [lia|congruence|]. split; [congruence|reflexivity]. Qed.

(** What the octets say: the names in their order, and what each value became; a
    name without a value is one with an empty value. *)
Definition became (kv : str * option str) (x : str) : Prop := match snd kv with Some v => plain_value v x | None => x = [] end.
Theorem C90_cookie_determines : forall C L v v' out, encoded (with_cookies C L) (lit "cookie") v = Ok out -> encoded (with_cookies C L) (lit "cookie") v' = Ok out ->
  Forall2 (fun a b => fst a = fst b /\ exists x, became a x /\ became b x) (cl_dict C v) (cl_dict C v').
Proof.
  intros C L v v' out H H'. apply C90_cookie in H as (ps & Hp & ->). apply C90_cookie in H' as (qs & Hq & E). revert qs Hq E. generalize (cl_dict C v'). generalize (cl_dict C v) ps Hp. clear.
  assert (Shape : forall kv p, pair_layout kv p -> exists kn x xn, number (lenN (fst kv)) kn /\ became kv x /\ number (lenN x) xn /\ p = lit "_" ++ kn ++ fst kv ++ xn ++ x).
  { intros kv p Hp. destruct Hp as [k v x kn xn Hk Hv Hx|k kn Hk]; [exists kn, x, xn; auto|exists kn, [], [0]]. split; [exact Hk|]. split; [reflexivity|]. split; [now constructor|].
    cbn [fst]. reflexivity. }
  intros l ps Hp. induction Hp as [|a p l ps Ha Hl IH]; intros l' qs Hq E.
  - inversion Hq as [|b q l'' qs' Hb Hl']; subst; [constructor|]. exfalso. destruct (Shape _ _ Hb) as (kn & x & xn & _ & _ & _ & ->). discriminate.
  - destruct (Shape _ _ Ha) as (kn & x & xn & Hk & Hx & Hn & ->). inversion Hq as [|b q l'' qs' Hb Hl']; subst; [discriminate|].
    destruct (Shape _ _ Hb) as (kn' & x' & xn' & Hk' & Hx' & Hn' & ->). cbn [concat] in E. rewrite <- !app_assoc in E. apply app_inv_head in E.
    destruct (number_app _ _ _ Hk _ _ _ Hk' E) as (El & _ & E1). destruct (app_len_inv _ _ _ _ El E1) as [Ek E2].
    destruct (number_app _ _ _ Hn _ _ _ Hn' E2) as (El2 & _ & E3). destruct (app_len_inv _ _ _ _ El2 E3) as [Ex E4]. subst x'.
    constructor; [split; [exact Ek|eauto]|]. eapply IH; eassumption.
Qed.
Print Assumptions C90_cookie_determines.

(** Different values with the same octets: 41 and A, or QQ== and A. *)
Theorem C90_cookie_kept_refuted : exists C v v' v'', forall L,
  cl_dict C v = [(lit "x", Some (lit "41"))] /\ cl_dict C v' = [(lit "x", Some (lit "A"))] /\ cl_dict C v'' = [(lit "x", Some (lit "QQ=="))] /\
  encoded (with_cookies C L) (lit "cookie") v = Ok (lit "_" ++ [1] ++ lit "x" ++ [1] ++ lit "A") /\
  encoded (with_cookies C L) (lit "cookie") v' = Ok (lit "_" ++ [1] ++ lit "x" ++ [1] ++ lit "A") /\
  encoded (with_cookies C L) (lit "cookie") v'' = Ok (lit "_" ++ [1] ++ lit "x" ++ [1] ++ lit "A").
Proof.
  exists (mk_cookie_library (fun _ => Ok []) (fun v => [(lit "x", Some v)])), (lit "41"), (lit "A"), (lit "QQ=="). intros L. repeat split; vm_compute; reflexivity.
Qed.
Print Assumptions C90_cookie_kept_refuted.

(** *** Set-cookie *)
Lemma pack_two n s : pack_H n = Ok s <-> n < 65536 /\ s = in_two_octets n.
Proof.
  unfold pack_H, in_two_octets. destruct (N.ltb_spec n 65536) as [H|H].
  - rewrite ok_iff, N.shiftr_div_pow2. change 255 with (N.ones 8). rewrite N.land_ones. change (2 ^ 8) with 256. tauto.
  - split; [discriminate|]. intros [C _]. lia.
Qed.
Lemma attribute_iff a s : enc_attribute a = Ok s <-> lenN a < 65536 /\ s = in_two_octets (lenN a) ++ a.
Proof.
  unfold enc_attribute. rewrite bind_iff. setoid_rewrite ok_iff. setoid_rewrite pack_two. split; [intros (x & [H ->] & ->); auto|intros (H & ->); exists (in_two_octets (lenN a)); auto].
Qed.
Lemma morsel_iff L n m s : enc_morsel L n m = Ok s <-> morsel_layout L (n, m) s.
Proof.
  unfold enc_morsel. split.
  - intros H. apply bind_iff in H as (nn & Hn & H). apply bind_iff in H as (x & Hx & H). apply bind_iff in H as (xn & Hxn & H). apply bind_iff in H as (p & Hp & H). apply bind_iff in H as (d & Hd & H).
    apply bind_iff in H as (age & Ha & H). apply ok_inv in H. subst s. apply number_len in Hn, Hxn. apply C90_value in Hx. apply attribute_iff in Hp as [Hp ->]. apply attribute_iff in Hd as [Hd ->].
    rewrite <- !app_assoc. apply (morsel_in L n m x nn xn age); try assumption.
    + intros N. destruct (m_maxage m); [congruence|exact Ha].
    + intros N. rewrite N in Ha. exact Ha.
  - intros H. inversion H as [n' m' x nn xn age Hn Hx Hxn Hp Hd Ha1 Ha2]; subst. apply bind_iff. exists nn. split; [now apply number_len|]. apply bind_iff. exists x. split; [now apply C90_value|].
    apply bind_iff. exists xn. split; [now apply number_len|]. apply bind_iff. exists (in_two_octets (lenN (m_path m)) ++ m_path m). split; [now apply attribute_iff|].
    apply bind_iff. exists (in_two_octets (lenN (m_domain m)) ++ m_domain m). split; [now apply attribute_iff|]. apply bind_iff. exists age. split.
    + destruct (m_maxage m) as [|c a]; [exact (Ha2 eq_refl)|]. apply Ha1. discriminate.
    + rewrite <- !app_assoc. reflexivity.
Qed.
Lemma morsels_iff L l : forall e out, enc_morsels L l e = Ok out <-> exists ps, Forall2 (morsel_layout L) l ps /\ out = e ++ concat ps.
Proof.
  induction l as [|[n m] l IH]; intros e out; cbn [enc_morsels].
  - rewrite ok_iff. split; [intros ->; exists []; split; [constructor|now rewrite app_nil_r]|intros (ps & H & ->); inversion H; now rewrite app_nil_r].
  - rewrite bind_iff. split.
    + intros (s & Hs & H). apply morsel_iff in Hs. apply IH in H as (ps & Hps & ->). exists (s :: ps). split; [now constructor|]. cbn [concat]. now rewrite app_assoc.
    + intros (ps & H & ->). inversion H as [|? s ? ps' Hs Hps]; subst. exists s. split; [now apply morsel_iff|]. apply IH. exists ps'. split; [exact Hps|]. cbn [concat]. now rewrite app_assoc.
Qed.

Definition cookies_of (C : cookie_library) (L : library) (v t : str) : Prop := exists c ps,
  cl_cookie C (map (fun x => if (x =? 91) || (x =? 93) then 95 else x) v) = Ok c /\ Forall2 (morsel_layout L) c ps /\ t = concat ps.
Lemma brackets v : no_brackets v = map (fun x => if (x =? 91) || (x =? 93) then 95 else x) v.
Proof. unfold no_brackets. apply map_ext. intros x. now rewrite orb_comm. Qed.

Lemma setcookies_iff C L vals : forall e out, enc_setcookies C L vals e = Ok out <->
  exists ts, Forall2 (cookies_of C L) vals ts /\ out = match e with [] => join [0] (from_first_text ts) | _ => join [0] (e :: ts) end.
Proof.
  induction vals as [|v vals IH]; intros e out; cbn [enc_setcookies].
  - rewrite ok_iff. split; [intros ->; exists []; split; [constructor|destruct e; reflexivity]|intros (ts & H & ->); inversion H; destruct e; reflexivity].
  - assert (J : forall t ts, let e' := match e with [] => [] | _ => e ++ [0] end ++ t in
        match e with [] => join [0] (from_first_text (t :: ts)) | _ => join [0] (e :: t :: ts) end =
        match e' with [] => join [0] (from_first_text ts) | _ => join [0] (e' :: ts) end).
    { intros t ts. destruct e as [|x e]; cbn [app].
      - destruct t as [|y t]; reflexivity.
      - cbv zeta. cbn [join]. destruct ts as [|u ts]; cbn [join app]; rewrite <- ?app_assoc; reflexivity. }
    cbv zeta in J. rewrite bind_iff. split.
    + intros (c & Ec & H). apply bind_iff in H as (e' & He & H). apply morsels_iff in He as (ps & Hps & ->). apply IH in H as (ts & Hts & ->).
      exists (concat ps :: ts). split; [constructor; [|exact Hts]; exists c, ps; rewrite <- brackets; auto|]. rewrite J. reflexivity.
    + intros (ts & H & ->). inversion H as [|? t ? ts' Ht Hts]; subst. destruct Ht as (c & ps & Ec & Hps & ->). rewrite <- brackets in Ec. exists c. split; [exact Ec|].
      apply bind_iff. exists (match e with [] => [] | _ => e ++ [0] end ++ concat ps). split; [apply morsels_iff; eauto|]. apply IH. exists ts'. split; [exact Hts|]. apply J.
Qed.

(** The cookies of each value after the other, a NUL between the values once there
    is a cookie; brackets are replaced. *)
Theorem C90_setcookie : forall C L v out, encoded (with_cookies C L) (lit "set-cookie") v = Ok out <->
  exists ts, Forall2 (cookies_of C L) (split_on 0 v) ts /\ out = join [0] (from_first_text ts).
Proof. intros C L v out. apply setcookies_iff. Qed.
Print Assumptions C90_setcookie.

Example C90_example : forall L,
  let C := mk_cookie_library (fun v => Ok [(lit "sid", mk_morsel v (lit "/") [] (lit "300") []); (lit "u", mk_morsel (lit "Zm9v") [] (lit "a.b") [] (lit "never"))])
             (fun v => [(lit "id", Some v); (lit "flag", None)]) in
  lib_date L (lit "never") = None ->
  hexadecimal (lit "4aFf") [74; 255] /\ base64 (lit "Zm9v") (lit "foo") /\ base64 (lit "Zm8=") (lit "fo") /\
  plain_value (lit "a-b") (lit "a-b") /\
  encoded (with_cookies C L) (lit "cookie") (lit "4aFf") = Ok (lit "_" ++ [2] ++ lit "id" ++ [2; 74; 255] ++ lit "_" ++ [4] ++ lit "flag" ++ [0]) /\
  encoded (with_cookies C L) (lit "cookie") (lit "41" ++ [10]) = Err TypeError /\
  encoded (with_cookies C L) (lit "set-cookie") (lit "[1]") =
    Ok (lit "." ++ [3] ++ lit "sid" ++ [3] ++ lit "_1_" ++ [0; 1] ++ lit "/" ++ [0; 0] ++ [172; 2] ++
        lit "." ++ [1] ++ lit "u" ++ [3] ++ lit "foo" ++ [0; 0; 0; 3] ++ lit "a.b" ++ [0]).
Proof.
  intros L C HL. split; [|split; [|split; [|split; [|split; [|split]]]]].
  - change [74; 255] with [16 * 4 + 10; 16 * 15 + 15]. repeat (apply hex_pair; [apply hex_value_iff; reflexivity|apply hex_value_iff; reflexivity|]). constructor.
  - assert (E : exists out, base64 (lit "Zm9v") out) by (apply groups_base64; vm_compute; reflexivity). destruct E as [out E]. pose proof (base64_ok _ _ E) as [_ E']. vm_compute in E'. now rewrite <- E' in E.
  - assert (E : exists out, base64 (lit "Zm8=") out) by (apply groups_base64; vm_compute; reflexivity). destruct E as [out E]. pose proof (base64_ok _ _ E) as [_ E']. vm_compute in E'. now rewrite <- E' in E.
  - apply C90_value. vm_compute. reflexivity.
  - vm_compute. reflexivity.
  - vm_compute. reflexivity.
  - change (encoded (with_cookies C L) (lit "set-cookie") (lit "[1]")) with (enc_setcookie C L (lit "[1]")). unfold enc_setcookie. change (split_on 0 (lit "[1]")) with [lit "[1]"].
    cbn [enc_setcookies]. change (cl_cookie C (no_brackets (lit "[1]"))) with (Ok (A := list (str * morsel)) [(lit "sid", mk_morsel (lit "_1_") (lit "/") [] (lit "300") []); (lit "u", mk_morsel (lit "Zm9v") [] (lit "a.b") [] (lit "never"))]).
    cbn [bind enc_morsels]. unfold enc_morsel. cbn [m_maxage m_expires m_value m_path m_domain]. change (lit "300") with (51 :: [48; 48]). cbv iota. unfold enc_date. rewrite HL. vm_compute. reflexivity.
Qed.
