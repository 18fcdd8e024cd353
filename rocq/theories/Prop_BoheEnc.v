(** * Property C89: what bohe's binary values contain. *)
From Coq Require Import String List NArith ZArith Bool Arith Lia ZifyN ZifyNat.
From Verif Require Import NBits Bits HDHuff_Bits BB_Read D2Huff_Model D2Huff_Proofs D1Huff_Model Prop_D1Huff Small_Model Prop_Small Bohe_Model Bohe_Proofs Prop_Bohe PyBase PyStr.
Import ListNotations.
Open Scope N_scope.
Open Scope py_scope.

(** ** Numbers *)

(** Seven bits an octet, least significant first; 128 is added to all but the last. *)
Inductive number : N -> str -> Prop :=
| number_last v : v < 128 -> number v [v]
| number_more v s : 128 <= v -> number (v / 128) s -> number v ((v mod 128 + 128) :: s).

Lemma number_loop fuel : forall v s, uvarint_loop fuel v = Ok s -> number v s.
Proof.
  induction fuel as [|f IH]; intros v s E; [discriminate|]. cbn [uvarint_loop] in E. rewrite uvarint_octet, shiftr7 in E.
  pose proof (N.div_mod v 128 ltac:(lia)). pose proof (N.mod_upper_bound v 128 ltac:(lia)).
  destruct (N.eqb_spec (v / 128) 0) as [Z0|Z0].
  - assert (Es : s = [v mod 128 + 0]) by congruence. subst s. replace (v mod 128 + 0) with v by lia. constructor. lia.
  - destruct (uvarint_loop f (v / 128)) as [r|] eqn:Er; [|discriminate]. cbn [bind] in E. assert (Es : s = v mod 128 + 128 :: r) by congruence. subst s.
    constructor; [nia|]. now apply IH.
Qed.
Lemma number_fun v s : number v s -> forall t, number v t -> s = t.
Proof. induction 1 as [v H|v s H Hs IH]; intros t Ht; inversion Ht; subst; try lia; [reflexivity|]. f_equal. now apply IH. Qed.
Lemma number_iff z s : uvarint_of z = Ok s <-> number (Z.to_N (Z.max 0 z)) s.
Proof.
  split; [intros E; eapply number_loop, E|]. intros H. destruct (uvarint_of_ok z) as (t & E & _). rewrite E. f_equal. symmetry.
  eapply number_fun; [exact H|]. eapply number_loop, E.
Qed.
Lemma number_of n s : uvarint_of (Z.of_N n) = Ok s <-> number n s.
Proof. rewrite number_iff. now replace (Z.to_N (Z.max 0 (Z.of_N n))) with n by lia. Qed.
Lemma number_len (A : Type) (l : list A) s : uvarint_of (Z.of_nat (length l)) = Ok s <-> number (lenN l) s.
Proof. rewrite number_iff. unfold lenN. now replace (Z.to_N (Z.max 0 (Z.of_nat (length l)))) with (N.of_nat (length l)) by lia. Qed.
Lemma number_0 : uvarint_of 0 = Ok [0].
Proof. reflexivity. Qed.
Lemma number_total n : exists s, number n s.
Proof. destruct (uvarint_of_ok (Z.of_N n)) as (s & E & _). exists s. now apply number_of. Qed.

Lemma bind_iff {A B} (x : res A) (f : A -> res B) y : bind x f = Ok y <-> exists a, x = Ok a /\ f a = Ok y.
Proof. destruct x as [a|e]; cbn [bind]; split; [eauto|intros (b & E & H); now replace a with b by congruence|discriminate|intros (b & E & _); discriminate]. Qed.
Lemma ok_iff {A} (x y : A) : Ok x = Ok y <-> y = x.
Proof. split; congruence. Qed.

(** *** The numeric headers: one number for each value. *)
Theorem C89_numbers : forall L k l out, In k [lit ":status"; lit "content-length"; lit "age"] -> l <> [] -> Forall plain_number l ->
  (encoded L k (nul_list l) = Ok out <-> exists ss, Forall2 number (map value_of l) ss /\ out = concat ss).
Proof.
  intros L k l out Hk Hn Hl. replace (encoded L k (nul_list l)) with (enc_uvarint (nul_list l)) by (destruct Hk as [<-|[<-|[<-|[]]]]; reflexivity).
  rewrite enc_uvarint_numbers by assumption. clear Hn Hl Hk. revert out. induction l as [|x l IH]; intros out; cbn [map uvarints].
  - rewrite ok_iff. split; [intros ->; exists []; split; [constructor|reflexivity]|intros (ss & H & ->); inversion H; reflexivity].
  - rewrite bind_iff. split.
    + intros (a & Ea & H). apply bind_iff in H as (b & Eb & H). apply IH in Eb as (ss & Hs & ->). exists (a :: ss). split; [constructor; [now apply number_of|exact Hs]|].
      cbn [concat]. congruence.
    + intros (ss & H & ->). inversion H as [|? s ? ss' H1 H2]; subst. exists s. split; [now apply number_of|]. apply bind_iff. exists (concat ss').
      split; [apply IH; eauto|reflexivity].
Qed.
Print Assumptions C89_numbers.

(** *** The dates: seconds since 1990, or the number that is there instead, or 0. *)
Definition date_headers : list str := map lit ["last-modified"; "date"; "expires"; "if-modified-since"]%string.
Theorem C89_dates : forall L k v, In k date_headers -> exists out z, encoded L k v = Ok out /\ number (Z.to_N (Z.max 0 z)) out /\
  match lib_date L v with
  | Some t => z = (t - 631152000)%Z
  | None => (number_text v -> py_int v = Ok z) /\ (~ number_text v -> z = 0%Z) /\ (v <> [] -> Forall digit v -> z = Z.of_N (value_of v))
  end.
Proof.
  intros L k v Hk. replace (encoded L k v) with (enc_date L v) by (destruct Hk as [<-|[<-|[<-|[<-|[]]]]]; reflexivity). unfold enc_date.
  destruct (lib_date L v) as [t|].
  - destruct (uvarint_of_ok (t - new_epoch)) as (s & E & _). exists s, (t - new_epoch)%Z. split; [exact E|]. split; [now apply number_iff|reflexivity].
  - destruct (py_int v) as [n|e] eqn:Ev.
    + destruct (uvarint_of_ok n) as (s & E & _). exists s, n. split; [exact E|]. split; [now apply number_iff|]. split; [auto|]. split.
      * intros H. pose proof (proj2 (py_int_iff v) H). congruence.
      * intros H1 H2. pose proof (py_int_digits v H1 H2). congruence.
    + exists [0], 0%Z. split; [exact number_0|]. split; [now constructor|]. split; [intros H; destruct (proj1 (py_int_iff v) H); congruence|]. split; [auto|].
      intros H1 H2. pose proof (py_int_digits v H1 H2). congruence.
Qed.
Print Assumptions C89_dates.

(** *** Accept: the values with a positive quality, with NUL between them; empty
    ones in front leave no trace. *)
Fixpoint from_first_text (l : list str) : list str := match l with [] :: r => from_first_text r | _ => l end.
Definition accept_headers : list str := map lit ["accept"; "accept-language"; "accept-encoding"; "accept-charset"]%string.
Theorem C89_accept : forall L k v, In k accept_headers ->
  encoded L k v = Ok (join [0] (from_first_text (map fst (filter snd (lib_accept L v))))).
Proof.
  intros L k v Hk. replace (encoded L k v) with (Ok (enc_accept L v)) by (destruct Hk as [<-|[<-|[<-|[<-|[]]]]]; reflexivity). f_equal.
  unfold enc_accept. generalize (lib_accept L v). clear.
  assert (G : forall l acc, acc <> [] -> accept_loop l acc = join [0] (acc :: map fst (filter snd l))).
  { induction l as [|[x [|]] l IH]; intros acc Ha; cbn [accept_loop filter snd map fst]; [reflexivity| |now apply IH].
    destruct acc as [|c acc]; [congruence|]. rewrite IH by discriminate. set (a := c :: acc). set (m := map fst (filter snd l)).
    destruct m as [|y m]; cbn [join]; rewrite <- ?app_assoc; reflexivity. }
  induction l as [|[x [|]] l IH]; cbn [accept_loop filter snd map fst]; [reflexivity| |exact IH].
  cbn [app]. destruct x as [|c x]; cbn [from_first_text]; [exact IH|]. now apply G.
Qed.
Print Assumptions C89_accept.

(** *** Entity tags: how many, then each as 16 and its digest; so every tag takes
    17 octets. *)
Theorem C89_etag : forall L k v out, In k (map lit ["etag"; "if-match"; "if-none-match"]%string) ->
  (encoded L k v = Ok out <-> exists n, number (lenN (split_on 0 v)) n /\ out = n ++ flat_map (fun tag => 16 :: lib_md5 L tag) (split_on 0 v)).
Proof.
  intros L k v out Hk. replace (encoded L k v) with (enc_etag L v) by (destruct Hk as [<-|[<-|[<-|[]]]]; reflexivity). unfold enc_etag.
  rewrite bind_iff. setoid_rewrite number_len. setoid_rewrite ok_iff. reflexivity.
Qed.
Print Assumptions C89_etag.
Theorem C89_etag_size : forall L k tags out, In k (map lit ["etag"; "if-match"; "if-none-match"]%string) ->
  (forall s, length (lib_md5 L s) = 16%nat) -> tags <> [] -> (length tags < 128)%nat -> Forall (fun tag => ~ In 0 tag) tags ->
  encoded L k (join [0] tags) = Ok out -> length out = (1 + 17 * length tags)%nat.
Proof.
  intros L k tags out Hk Hmd Hn Hl Hf E. apply C89_etag in E as (n & Hnum & ->); [|exact Hk]. rewrite split_on_join in * by assumption.
  assert (n = [lenN tags]) by (eapply number_fun; [exact Hnum|constructor; unfold lenN; lia]). subst n. rewrite app_length. cbn [length]. f_equal.
  clear - Hmd. induction tags as [|x tags IH]; [reflexivity|]. cbn [flat_map length]. rewrite app_length, IH. cbn [length]. rewrite Hmd. lia.
Qed.
Print Assumptions C89_etag_size.

(** *** P3P *)

Definition p3p_words : list str := split_on 32 (lit
  "NOI ALL CAO IDC OTI NON DSP COR MON LAW NID CUR ADM DEV TAI PSA PSD IVA IVD CON HIS TEL OTP OUR DEL SAM UNR PUB OTR NOR STP LEG BUS IND PHY ONL UNI PUR FIN COM NAV INT DEM CNT STA POL HEA PRE LOC GOV OTC TST").
(** A token begins with a word of the list; a token with one more letter has a, i
    or o there.  Its code: four times the place in the list, plus 0, 1, 2. *)
Inductive token_code : str -> N -> Prop :=
| code_word i w rest : nth_error p3p_words i = Some w -> length rest <> 1%nat -> token_code (w ++ rest) (4 * (N.of_nat i + 1))
| code_a i w : nth_error p3p_words i = Some w -> token_code (w ++ lit "a") (4 * (N.of_nat i + 1))
| code_i i w : nth_error p3p_words i = Some w -> token_code (w ++ lit "i") (4 * (N.of_nat i + 1) + 1)
| code_o i w : nth_error p3p_words i = Some w -> token_code (w ++ lit "o") (4 * (N.of_nat i + 1) + 2).
Definition known_word (t : str) : Prop := exists w rest, In w p3p_words /\ t = w ++ rest.
(** The codes of a policy: none at all if a token is not known. *)
Definition codes (tokens : list str) (cs : str) : Prop :=
  Forall2 token_code tokens cs \/
  (cs = [] /\ exists pre t post, tokens = pre ++ t :: post /\ Forall (fun x => exists c, token_code x c) pre /\ ~ known_word t).

Lemma words_table : p3p_words = p3p_table.
Proof. vm_compute. reflexivity. Qed.
Lemma word_len i w : nth_error p3p_words i = Some w -> length w = 3%nat /\ (i < 52)%nat /\ index_of w p3p_table = Some (N.of_nat i).
Proof.
  rewrite words_table. intros H. do 52 (destruct i as [|i]; [cbn in H; injection H as <-; vm_compute; split; [reflexivity|split; [lia|reflexivity]]|]).
  exfalso. cbn in H. destruct i; discriminate.
Qed.
Lemma index_word k i : index_of k p3p_table = Some i -> nth_error p3p_words (N.to_nat i) = Some k.
Proof. intros H. rewrite words_table. now apply index_of_some in H. Qed.
Lemma firstn_word (w rest : str) : length w = 3%nat -> firstn 3 (w ++ rest) = w.
Proof. intros H. rewrite firstn_app, H, Nat.sub_diag, firstn_all2 by lia. cbn [firstn]. apply app_nil_r. Qed.

(** One turn of the loop. *)
Definition token_octet (t : str) : option (res N) :=
  match index_of (firstn 3 t) p3p_table with
  | None => None
  | Some i => Some (let q := N.shiftl (i + 1) 2 in
      if (length t =? 4)%nat then match index_of [last t 0] (map lit ["a"; "i"; "o"]%string) with Some j => Ok (N.lor q j) | None => Err ValueError end else Ok q)
  end.
Lemma loop_cons t r cp : p3p_loop (t :: r) cp =
  match token_octet t with None => Ok [] | Some q => let* q := q in let* s := pack_B q in p3p_loop r (cp ++ s) end.
Proof. cbn [p3p_loop]. unfold token_octet. destruct (index_of (firstn 3 t) p3p_table); reflexivity. Qed.

Lemma shift2 i : N.shiftl (i + 1) 2 = 4 * (i + 1).
Proof. rewrite N.shiftl_mul_pow2. change (2 ^ 2) with 4. lia. Qed.
Lemma lor2 i j : j < 4 -> N.lor (4 * (i + 1)) j = 4 * (i + 1) + j.
Proof. intros H. rewrite <- (shift2 i) at 1. rewrite lor_shift_low by (change (2 ^ 2) with 4; lia). change (2 ^ 2) with 4. lia. Qed.
Lemma suffix_index e j : index_of [e] (map lit ["a"; "i"; "o"]%string) = Some j -> (e = 97 /\ j = 0) \/ (e = 105 /\ j = 1) \/ (e = 111 /\ j = 2).
Proof.
  intros H. apply index_of_some in H as [H Hj]. change (lenN (map lit ["a"; "i"; "o"]%string)) with 3 in Hj.
  assert (C : j = 0 \/ j = 1 \/ j = 2) by lia. destruct C as [ -> | [ -> | -> ] ]; vm_compute in H; [left|right; left|right; right]; split; congruence.
Qed.
Lemma octet_code t c : token_octet t = Some (Ok c) <-> token_code t c.
Proof.
  unfold token_octet. split.
  - destruct (index_of (firstn 3 t) p3p_table) as [i|] eqn:Ei; [|discriminate]. cbv zeta. apply index_word in Ei. destruct (word_len _ _ Ei) as (Hl & Hi & _).
    rewrite firstn_length in Hl. rewrite shift2. assert (Ni : i = N.of_nat (N.to_nat i)) by lia.
    destruct (Nat.eqb_spec (length t) 4) as [H4|H4].
    + destruct t as [|a [|b [|d [|e [|f t]]]]]; try discriminate H4. cbn [last firstn] in *.
      destruct (index_of [e] (map lit ["a"; "i"; "o"]%string)) as [j|] eqn:Ej; [|discriminate]. apply suffix_index in Ej.
      intros E. assert (Ec : c = N.lor (4 * (i + 1)) j) by congruence. clear E. subst c. rewrite lor2 by lia. rewrite Ni.
      destruct Ej as [[-> ->]|[[-> ->]|[-> ->]]].
      * rewrite N.add_0_r. exact (code_a _ [a; b; d] Ei).
      * exact (code_i _ [a; b; d] Ei).
      * exact (code_o _ [a; b; d] Ei).
    + intros E. assert (Ec : c = 4 * (i + 1)) by congruence. subst c. rewrite Ni. rewrite <- (firstn_skipn 3 t).
      apply code_word; [exact Ei|]. rewrite skipn_length. lia.
  - intros H. destruct H as [i w rest H Hr|i w H|i w H|i w H]; destruct (word_len i w H) as (Hl & Hi & Ex); rewrite firstn_word, Ex by exact Hl; cbv zeta; f_equal.
    + destruct (Nat.eqb_spec (length (w ++ rest)) 4) as [C|C]; [rewrite app_length in C; lia|]. now rewrite shift2.
    + rewrite app_length, Hl. change (lit "a") with [97]. rewrite last_last. change (3 + length [97] =? 4)%nat with true. cbv iota. change (index_of [97] (map lit ["a"; "i"; "o"]%string)) with (Some 0).
      cbv iota. now rewrite shift2, lor2, N.add_0_r by lia.
    + rewrite app_length, Hl. change (lit "i") with [105]. rewrite last_last. change (3 + length [105] =? 4)%nat with true. cbv iota. change (index_of [105] (map lit ["a"; "i"; "o"]%string)) with (Some 1).
      cbv iota. now rewrite shift2, lor2 by lia.
    + rewrite app_length, Hl. change (lit "o") with [111]. rewrite last_last. change (3 + length [111] =? 4)%nat with true. cbv iota. change (index_of [111] (map lit ["a"; "i"; "o"]%string)) with (Some 2).
      cbv iota. now rewrite shift2, lor2 by lia.
Qed.
Lemma octet_none t : token_octet t = None <-> ~ known_word t.
Proof.
  unfold token_octet. destruct (index_of (firstn 3 t) p3p_table) as [i|] eqn:Ei; split; try discriminate; try reflexivity.
  - intros H. exfalso. apply H. exists (firstn 3 t), (skipn 3 t). split; [eapply nth_error_In, index_word, Ei|symmetry; apply firstn_skipn].
  - intros _ (w & rest & Hw & ->). apply In_nth_error in Hw as [i Hi]. destruct (word_len i w Hi) as (Hl & _ & Ex). rewrite firstn_word in Ei by exact Hl. congruence.
Qed.
Lemma code_small t c : token_code t c -> c < 256.
Proof. intros H. destruct H as [i w rest H Hr|i w H|i w H|i w H]; destruct (word_len i w H) as (_ & Hi & _); lia. Qed.
Lemma octet_error t e : token_octet t = Some (Err e) -> e = ValueError.
Proof.
  unfold token_octet. destruct (index_of (firstn 3 t) p3p_table); [|discriminate]. cbv zeta. destruct (length t =? 4)%nat; [|discriminate].
  destruct (index_of _ _); congruence.
Qed.

Lemma loop_iff tokens : forall cp out, p3p_loop tokens cp = Ok out <->
  (exists cs, Forall2 token_code tokens cs /\ out = cp ++ cs) \/
  (out = [] /\ exists pre t post, tokens = pre ++ t :: post /\ Forall (fun x => exists c, token_code x c) pre /\ ~ known_word t).
Proof.
  induction tokens as [|t r IH]; intros cp out.
  - cbn [p3p_loop]. rewrite ok_iff. split.
    + intros ->. left. exists []. split; [constructor|now rewrite app_nil_r].
    + intros [(cs & H & ->)|(_ & pre & t & post & E & _)]; [inversion H; now rewrite app_nil_r|destruct pre; discriminate].
  - rewrite loop_cons. destruct (token_octet t) as [[c|e]|] eqn:Et.
    + apply octet_code in Et. pose proof (code_small _ _ Et) as Hc. cbn [bind]. unfold pack_B. destruct (N.ltb_spec c 256); [|lia]. cbn [bind]. rewrite IH. split.
      * intros [(cs & H1 & ->)|(-> & pre & x & post & E & H1 & H2)]; [left; exists (c :: cs)|right].
        -- split; [now constructor|]. now rewrite <- app_assoc.
        -- split; [reflexivity|]. exists (t :: pre), x, post. subst r. split; [reflexivity|]. split; [constructor; eauto|exact H2].
      * intros [(cs & H1 & ->)|(-> & pre & x & post & E & H1 & H2)].
        -- inversion H1 as [|? c' ? cs' Hc' Hcs]; subst. apply octet_code in Et, Hc'. assert (c' = c) by congruence. subst c'. left. exists cs'. split; [exact Hcs|]. now rewrite <- app_assoc.
        -- destruct pre as [|y pre]; cbn [app] in E.
           ++ exfalso. assert (x = t) by congruence. subst x. apply octet_none in H2. apply octet_code in Et. congruence.
           ++ assert (y = t /\ r = pre ++ x :: post) as [-> ->] by (split; congruence). right. split; [reflexivity|]. exists pre, x, post. inversion H1; subst. auto.
    + cbn [bind]. split; [discriminate|]. intros [(cs & H1 & ->)|(-> & pre & x & post & E & H1 & H2)]; exfalso.
      * inversion H1 as [|? c' ? cs' Hc' Hcs]; subst. apply octet_code in Hc'. congruence.
      * destruct pre as [|y pre]; cbn [app] in E.
        -- assert (x = t) by congruence. subst x. apply octet_none in H2. congruence.
        -- assert (y = t) by congruence. subst y. inversion H1 as [|? ? [c Hc] _]; subst. apply octet_code in Hc. congruence.
    + rewrite ok_iff. split.
      * intros ->. right. split; [reflexivity|]. exists [], t, r. split; [reflexivity|]. split; [constructor|]. now apply octet_none.
      * intros [(cs & H1 & ->)|(-> & _)]; [exfalso|reflexivity]. inversion H1 as [|? c' ? cs' Hc' Hcs]; subst. apply octet_code in Hc'. congruence.
Qed.

Lemma last_value_in {V} (l : list (str * V)) k v : NoDup (map fst l) -> (last_value l k = Some v <-> In (k, v) l).
Proof.
  induction l as [|[x y] l IH]; intros HN; cbn [last_value map fst In] in *; [split; [discriminate|tauto]|]. inversion HN as [|? ? Hx HN']; subst.
  specialize (IH HN'). destruct (last_value l k) as [z|] eqn:E.
  - rewrite IH. split; [auto|]. intros [C|C]; [exfalso|exact C]. assert (x = k) by congruence. subst x. apply Hx. 
    assert (H : In (k, z) l); [|exact (in_map fst _ _ H)]. clear - E. induction l as [|[a b] l IH]; cbn [last_value] in E; [discriminate|].
    destruct (last_value l k) as [w|]; [right; apply IH; congruence|]. destruct (str_eqb_spec k a) as [->|]; [left; congruence|discriminate].
  - destruct (str_eqb_spec k x) as [->|N]; split.
    + intros H. left. congruence.
    + intros [H|H]; [congruence|]. apply IH in H. discriminate.
    + discriminate.
    + intros [H|H]; [congruence|]. apply IH in H. discriminate.
Qed.
Lemma last_value_none {V} (l : list (str * V)) k : last_value l k = None <-> ~ In k (map fst l).
Proof.
  induction l as [|[x y] l IH]; cbn [last_value map fst In]; [tauto|]. destruct (last_value l k) as [z|].
  - split; [discriminate|]. intros H. exfalso. assert (C : Some z = None) by (apply IH; tauto). discriminate.
  - destruct (str_eqb_spec k x) as [->|N]; split; try discriminate.
    + intros H. exfalso. apply H. now left.
    + intros _ [C|C]; [congruence|]. now apply IH in C.
    + reflexivity.
Qed.

(** The header's parts are those of the library's dictionary: the policy
    reference with its length (0 without one), then the codes. *)
Theorem C89_p3p : forall L v out, NoDup (map fst (lib_dict L v)) ->
  (encoded L (lit "p3p") v = Ok out <-> exists ref cs, out = ref ++ cs /\
    ((exists p n, In (lit "policyref", Some p) (lib_dict L v) /\ number (lenN p) n /\ ref = n ++ p) \/
     (~ In (lit "policyref") (map fst (lib_dict L v)) /\ ref = [0])) /\
    ((exists c, In (lit "CP", Some c) (lib_dict L v) /\ codes (split_on 32 c) cs) \/
     (~ In (lit "CP") (map fst (lib_dict L v)) /\ cs = []))).
Proof.
  intros L v out HN. change (encoded L (lit "p3p") v) with (enc_p3p L v). unfold enc_p3p. set (d := lib_dict L v) in *.
  rewrite bind_iff. setoid_rewrite bind_iff. setoid_rewrite ok_iff. split.
  - intros (ref & Er & cs & Ec & ->). exists ref, cs. split; [reflexivity|]. split.
    + destruct (last_value d (lit "policyref")) as [[p|]|] eqn:E; [|discriminate|].
      * apply last_value_in in E; [|exact HN]. apply bind_iff in Er as (n & En & Er). left. exists p, n. split; [exact E|]. split; [now apply number_len|congruence].
      * right. split; [now apply last_value_none|]. rewrite number_0 in Er. congruence.
    + destruct (last_value d (lit "CP")) as [[c|]|] eqn:E; [|discriminate|].
      * apply last_value_in in E; [|exact HN]. left. exists c. split; [exact E|]. apply loop_iff in Ec. destruct Ec as [(cs' & H & ->)|H]; [now left|now right].
      * right. split; [now apply last_value_none|congruence].
  - intros (ref & cs & -> & Hr & Hc). exists ref. split.
    + destruct Hr as [(p & n & Hp & Hn & ->)|[Hn ->]].
      * apply (last_value_in d _ _ HN) in Hp. rewrite Hp. apply bind_iff. exists n. split; [now apply number_len|reflexivity].
      * apply last_value_none in Hn. now rewrite Hn.
    + exists cs. split; [|reflexivity]. destruct Hc as [(c & Hp & Hc)|[Hn ->]].
      * apply (last_value_in d _ _ HN) in Hp. rewrite Hp. apply loop_iff. destruct Hc as [H|H]; [left; now exists cs|now right].
      * apply last_value_none in Hn. now rewrite Hn.
Qed.
Print Assumptions C89_p3p.

Lemma loop_error tokens : forall cp e, p3p_loop tokens cp = Err e ->
  e = ValueError /\ exists pre w x post, tokens = pre ++ (w ++ [x]) :: post /\ In w p3p_words /\ ~ In x (lit "aio").
Proof.
  induction tokens as [|t r IH]; intros cp e; [discriminate|]. rewrite loop_cons. destruct (token_octet t) as [[c|e']|] eqn:Et; [| |discriminate].
  - apply octet_code, code_small in Et. cbn [bind]. unfold pack_B. destruct (N.ltb_spec c 256); [|lia]. cbn [bind]. intros HE.
    destruct (IH _ _ HE) as (E & pre & w & x & post & -> & H1). split; [exact E|]. exists (t :: pre), w, x, post. split; [reflexivity|exact H1].
  - cbn [bind]. intros E. assert (e' = e) by congruence. subst e'. split; [now apply octet_error in Et|]. unfold token_octet in Et.
    destruct (index_of (firstn 3 t) p3p_table) as [i|] eqn:Ei; [|discriminate]. cbv zeta in Et. destruct (Nat.eqb_spec (length t) 4) as [H4|]; [|discriminate].
    destruct t as [|a [|b [|d [|x [|f t]]]]]; try discriminate H4. cbn [firstn last] in *. apply index_word, nth_error_In in Ei.
    exists [], [a; b; d], x, r. split; [reflexivity|]. split; [exact Ei|]. intros Hx. destruct (index_of [x] (map lit ["a"; "i"; "o"]%string)) eqn:Ex; [discriminate|].
    apply index_of_none in Ex. apply Ex. destruct Hx as [<-|[<-|[<-|[]]]]; clear; vm_compute; tauto.
Qed.
(** When it raises: a name without a value, or a word of the list with another
    letter behind it. *)
Theorem C89_p3p_raises : forall L v e, NoDup (map fst (lib_dict L v)) -> encoded L (lit "p3p") v = Err e ->
  (e = TypeError /\ In (lit "policyref", None) (lib_dict L v)) \/ (e = AttributeError /\ In (lit "CP", None) (lib_dict L v)) \/
  (e = ValueError /\ exists pre w x post, In (lit "CP", Some (join [32] (pre ++ (w ++ [x]) :: post))) (lib_dict L v) /\ In w p3p_words /\ ~ In x (lit "aio")).
Proof.
  intros L v e HN. change (encoded L (lit "p3p") v) with (enc_p3p L v). unfold enc_p3p. set (d := lib_dict L v) in *.
  destruct (last_value d (lit "policyref")) as [[p|]|] eqn:E1.
  - destruct (uvarint_of_ok (Z.of_nat (length p))) as (s & -> & _). cbn [bind]. destruct (last_value d (lit "CP")) as [[c|]|] eqn:E2; cbn [bind]; [| |discriminate].
    + destruct (p3p_loop (split_on 32 c) []) as [cs|e'] eqn:El; cbn [bind]; [discriminate|]. intros E. assert (e' = e) by congruence. subst e'. right. right.
      destruct (loop_error _ _ _ El) as (-> & pre & w & x & post & Es & Hw & Hx). split; [reflexivity|]. exists pre, w, x, post. rewrite <- Es, join_split. split; [apply last_value_in; assumption|]. split; [exact Hw|exact Hx].
    + intros E. right. left. split; [congruence|now apply last_value_in].
  - cbn [bind]. intros E. left. split; [congruence|now apply last_value_in].
  - rewrite number_0. cbn [bind]. destruct (last_value d (lit "CP")) as [[c|]|] eqn:E2; cbn [bind]; [| |discriminate].
    + destruct (p3p_loop (split_on 32 c) []) as [cs|e'] eqn:El; cbn [bind]; [discriminate|]. intros E. assert (e' = e) by congruence. subst e'. right. right.
      destruct (loop_error _ _ _ El) as (-> & pre & w & x & post & Es & Hw & Hx). split; [reflexivity|]. exists pre, w, x, post. rewrite <- Es, join_split. split; [apply last_value_in; assumption|]. split; [exact Hw|exact Hx].
    + intros E. right. left. split; [congruence|now apply last_value_in].
Qed.
Print Assumptions C89_p3p_raises.

(** *** Cache-control *)

(** Directives, each with the blanks in front of it, its name and its value. *)
Definition directive : Type := nat * str * option str.
Definition d_name (d : directive) : str := snd (fst d).
Definition render (d : directive) : str :=
  repeat 32 (fst (fst d)) ++ d_name d ++ match snd d with Some v => [61] ++ v | None => [] end.
(** Letters of names and values. *)
Definition word (s : str) : Prop := Forall (fun c => 33 <= c <= 126 /\ c <> 44 /\ ~ (65 <= c <= 90)) s.
(** What is said of a name: 1 if it is there without a value, else the last value. *)
Definition valueless (m : str) (d : directive) : bool := str_eqb (d_name d) m && match snd d with None => true | Some _ => false end.
Fixpoint last_said (m : str) (ds : list directive) : option str :=
  match ds with
  | [] => None
  | d :: r => match last_said m r with Some v => Some v | None => if str_eqb (d_name d) m then snd d else None end
  end.
Definition says (ds : list directive) (m : str) : N :=
  if existsb (valueless m) ds then 1 else match last_said m ds with Some v => value_of v | None => 0 end.

Lemma word_not_space s : word s -> Forall (fun c => is_space c = false) s.
Proof.
  intros H. eapply Forall_impl; [|exact H]. cbn. intros c ((H1 & H2) & _). unfold is_space. destruct (N.eqb_spec c 32); [lia|].
  destruct (N.leb_spec 9 c), (N.leb_spec c 13); cbn; lia.
Qed.
Lemma word_strip n s : word s -> strip is_space (repeat 32 n ++ s) = s.
Proof.
  intros H. apply word_not_space in H. rewrite <- (app_nil_r s) at 1. apply strip_unique; [apply Forall_forall; intros c Hc; apply repeat_spec in Hc; now subst|constructor|].
  split; [destruct H; [exact I|assumption]|]. apply Forall_rev in H. destruct H; [exact I|assumption].
Qed.
Lemma word_lower s : word s -> lower s = s.
Proof.
  unfold lower. induction 1 as [|c s (_ & _ & Hc) Hs IH]; [reflexivity|]. cbn [map]. rewrite IH. f_equal. unfold lower_char.
  destruct (N.leb_spec 65 c), (N.leb_spec c 90); cbn; lia.
Qed.
Lemma word_no c s : word s -> c < 33 \/ c = 44 -> ~ In c s.
Proof. intros H Hc Hin. unfold word in H. rewrite Forall_forall in H. destruct (H c Hin) as (H1 & H2 & _). lia. Qed.

Lemma split_once_free c s : ~ In c s -> split_once c s = (s, None).
Proof. induction s as [|x s IH]; intros H; [reflexivity|]. cbn [split_once]. cbn in H. destruct (N.eqb_spec x c) as [->|]; [tauto|]. rewrite IH by tauto. reflexivity. Qed.
Lemma split_once_at c s t : ~ In c s -> split_once c (s ++ c :: t) = (s, Some t).
Proof. induction s as [|x s IH]; intros H; cbn [app split_once]; [now rewrite N.eqb_refl|]. cbn in H. destruct (N.eqb_spec x c) as [->|]; [tauto|]. rewrite IH by tauto. reflexivity. Qed.

Definition clean (d : directive) : Prop := word (d_name d) /\ ~ In 61 (d_name d) /\ match snd d with Some v => word v | None => True end.
Lemma render_no c d : clean d -> c = 0 \/ c = 44 -> ~ In c (render d).
Proof.
  intros (H1 & _ & H2) Hc Hin. unfold render in Hin. apply in_app_or in Hin as [Hin|Hin]; [apply repeat_spec in Hin; lia|].
  apply in_app_or in Hin as [Hin|Hin]; [apply (word_no c) in Hin; [exact Hin|exact H1|lia]|].
  destruct (snd d) as [v|]; [|exact Hin]. apply in_app_or in Hin as [[C|[]]|Hin]; [lia|]. apply (word_no c) in Hin; [exact Hin|exact H2|lia].
Qed.
Lemma render_split d : clean d -> split_once 61 (render d) = (repeat 32 (fst (fst d)) ++ d_name d, snd d).
Proof.
  intros (H1 & H3 & H2). assert (F : ~ In 61 (repeat 32 (fst (fst d)) ++ d_name d)).
  { intros C. apply in_app_or in C as [C|C]; [apply repeat_spec in C; discriminate|contradiction]. }
  unfold render. rewrite app_assoc. destruct (snd d) as [v|]; [now apply split_once_at|]. rewrite app_nil_r. now apply split_once_free.
Qed.

Lemma text_parts ds : ds <> [] -> Forall clean ds -> cc_parts (join [44] (map render ds)) =
  flat_map (fun d => match snd d with Some v => [(d_name d, inl v)] | None => [] end) ds ++
  flat_map (fun d => match snd d with Some _ => [] | None => [(d_name d, inr 1%Z)] end) ds.
Proof.
  intros Hn Hc. unfold cc_parts.
  assert (E0 : map (fun c => if c =? 0 then 44 else c) (join [44] (map render ds)) = join [44] (map render ds)).
  { rewrite <- (map_id (join [44] (map render ds))) at 2. apply map_ext_in. intros c Hin.
    destruct (N.eqb_spec c 0) as [->|]; [exfalso|reflexivity]. clear Hn. induction Hc as [|d ds Hd Hds IH]; [exact Hin|].
    cbn [map] in Hin. destruct ds as [|e ds]; [apply (render_no 0) in Hin; auto|].
    change (join [44] (render d :: map render (e :: ds))) with (render d ++ [44] ++ join [44] (map render (e :: ds))) in Hin.
    apply in_app_or in Hin as [Hin|Hin]; [apply (render_no 0) in Hin; auto|]. apply in_app_or in Hin as [[C|[]]|Hin]; [discriminate|]. now apply IH. }
  rewrite E0, split_on_join.
  - rewrite !flat_map_concat_map, !map_map. f_equal; f_equal; apply map_ext_in; intros d Hd; rewrite Forall_forall in Hc; specialize (Hc d Hd); rewrite render_split by exact Hc;
      destruct Hc as (H1 & H3 & H2); destruct (snd d) as [v|]; try reflexivity; rewrite word_strip, word_lower by exact H1; try reflexivity.
    rewrite <- (app_nil_l v) at 1. change (@nil N ++ v) with (repeat 32 0 ++ v). rewrite word_strip, word_lower by exact H2. reflexivity.
  - destruct ds; [congruence|discriminate].
  - apply Forall_forall. intros p Hp. apply in_map_iff in Hp as (d & <- & Hd). rewrite Forall_forall in Hc. apply render_no; auto.
Qed.

Lemma last_value_app {V} (a b : list (str * V)) k : last_value (a ++ b) k = match last_value b k with Some v => Some v | None => last_value a k end.
Proof.
  induction a as [|[x y] a IH]; cbn [app last_value]; [now destruct (last_value b k)|]. rewrite IH. destruct (last_value b k); [reflexivity|]. reflexivity.
Qed.
Lemma str_eqb_sym a b : str_eqb a b = str_eqb b a.
Proof. destruct (str_eqb_spec a b) as [E1|E1], (str_eqb_spec b a) as [E2|E2]; congruence. Qed.
Lemma with_values ds m : last_value (flat_map (fun d : directive => match snd d with Some v => [(d_name d, inl v)] | None => [] end) ds) m =
  option_map (@inl str Z) (last_said m ds).
Proof.
  induction ds as [|d ds IH]; [reflexivity|]. cbn [flat_map last_said]. rewrite last_value_app, IH. destruct (last_said m ds); [reflexivity|]. cbn [option_map].
  destruct (snd d) as [v|] eqn:E; cbn [last_value]; [|now destruct (str_eqb (d_name d) m)]. rewrite (str_eqb_sym m). destruct (str_eqb (d_name d) m); reflexivity.
Qed.
Lemma without_values ds m : last_value (flat_map (fun d : directive => match snd d with Some _ => [] | None => [(d_name d, @inr str Z 1%Z)] end) ds) m =
  if existsb (valueless m) ds then Some (inr 1%Z) else None.
Proof.
  induction ds as [|d ds IH]; [reflexivity|]. cbn [flat_map existsb]. rewrite last_value_app, IH. unfold valueless at 2.
  destruct (existsb (valueless m) ds); [now rewrite orb_true_r|]. rewrite orb_false_r. destruct (snd d) as [v|]; cbn [last_value]; [now rewrite andb_false_r|].
  rewrite andb_true_r, (str_eqb_sym m). destruct (str_eqb (d_name d) m); reflexivity.
Qed.

Lemma digits_uvarint v : v <> [] -> Forall digit v -> enc_uvarint v = uvarint_of (Z.of_N (value_of v)).
Proof.
  intros Hn Hd. unfold enc_uvarint. destruct v as [|c w] eqn:E; [congruence|]. rewrite <- E in *. rewrite split_on_free.
  - cbn [map_res]. rewrite py_int_digits by assumption. cbn [bind uvarints]. destruct (uvarint_of_ok (Z.of_N (value_of v))) as (s & -> & _). cbn [bind]. now rewrite app_nil_r.
  - intros C. rewrite Forall_forall in Hd. specialize (Hd 0 C). unfold digit in Hd. lia.
Qed.
Lemma number_says ds m s : (forall v, last_said m ds = Some v -> v <> [] /\ Forall digit v) -> ds <> [] -> Forall clean ds ->
  (cc_number (cc_parts (join [44] (map render ds))) m = Ok s <-> number (says ds m) s).
Proof.
  intros Hv Hn Hc. unfold cc_number. rewrite text_parts by assumption. rewrite last_value_app, without_values, with_values. unfold says.
  destruct (existsb (valueless m) ds); [apply (number_of 1)|]. destruct (last_said m ds) as [v|]; cbn [option_map].
  - destruct (Hv v eq_refl) as [H1 H2]. rewrite digits_uvarint by assumption. apply number_of.
  - apply (number_of 0).
Qed.

(** An underscore, then max-age, max-stale, min-fresh and 0; nothing else is kept,
    in requests and in responses. *)
Theorem C89_cachecontrol : forall L ds out, ds <> [] -> Forall clean ds ->
  (forall m v, In m (map lit ["max-age"; "max-stale"; "min-fresh"]%string) -> last_said m ds = Some v -> v <> [] /\ Forall digit v) ->
  (encoded L (lit "cache-control") (join [44] (map render ds)) = Ok out <->
   exists a b c, number (says ds (lit "max-age")) a /\ number (says ds (lit "max-stale")) b /\ number (says ds (lit "min-fresh")) c /\
     out = lit "_" ++ a ++ b ++ c ++ [0]).
Proof.
  intros L ds out Hn Hc Hv. change (encoded L (lit "cache-control") (join [44] (map render ds))) with (enc_cachecontrol (join [44] (map render ds))).
  unfold enc_cachecontrol. rewrite number_0. set (parts := cc_parts _). rewrite !bind_iff.
  pose proof (fun m Hm s => number_says ds m s (fun v => Hv m v Hm) Hn Hc) as NS. fold parts in NS.
  split.
  - intros (a & Ea & H). apply bind_iff in H as (b & Eb & H). apply bind_iff in H as (c & Ec & H). cbn [bind] in H.
    exists a, b, c. apply NS in Ea, Eb, Ec; try (cbn; tauto). split; [exact Ea|]. split; [exact Eb|]. split; [exact Ec|]. change (lit "_") with [95]. congruence.
  - intros (a & b & c & Ha & Hb & Hcc & ->). apply NS in Ha, Hb, Hcc; try (cbn; tauto). exists a. split; [exact Ha|]. apply bind_iff. exists b. split; [exact Hb|].
    apply bind_iff. exists c. split; [exact Hcc|]. reflexivity.
Qed.
Print Assumptions C89_cachecontrol.

(** ** The whole message *)

(** The flag for several values looks for the four characters backslash, u, 0, 0. *)
Definition has_backslash_u00 (v : str) : Prop := exists a b, v = a ++ [92; 117; 48; 48] ++ b.
(** The text of a value: code words and that of the end mark; in front the number
    of octets they fill. *)
Definition coded_text (h : huffman) (v : str) : list bool := flat_map (d1_word h) v ++ d1_word h 256.
(** Of a 32-bit number of octets only the upper thirty bits. *)
Definition length_field (n : N) : list bool := bits_of 30 (n / 4).
Definition text_field (h : huffman) (v : str) : list bool := length_field (octets_of_bits (lenN (coded_text h v))) ++ coded_text h v.
Inductive layout (L : library) (h : huffman) : str * str -> list bool -> Prop :=
| layout_binary k v s i m : nth_error id_table i = Some k -> binary L k -> encoded L k v = Ok s -> (m = true <-> has_backslash_u00 v) ->
    layout L h (k, v) (bits_of 8 (N.of_nat i + 1) ++ [true; m] ++ length_field (lenN s) ++ bits_of_bytes s)
| layout_text k v i m : nth_error id_table i = Some k -> ~ binary L k -> (m = true <-> has_backslash_u00 v) ->
    layout L h (k, v) (bits_of 8 (N.of_nat i + 1) ++ [m] ++ text_field h v)
| layout_other k v m : ~ registered k -> (m = true <-> has_backslash_u00 v) ->
    layout L h (k, v) (bits_of 8 (N.lor 128 (lenN k)) ++ bits_of_bytes k ++ [false; m] ++ text_field h v).

Lemma starts_iff p : forall s, starts p s = true <-> exists b, s = p ++ b.
Proof.
  induction p as [|x p IH]; intros [|y s]; cbn [starts app]; try (split; [eauto|reflexivity]).
  - split; [discriminate|]. intros (b & C). discriminate.
  - rewrite andb_true_iff, N.eqb_eq, IH. split; [intros (-> & b & ->); eauto|intros (b & E); split; [congruence|exists b; congruence]].
Qed.
Lemma contains_iff p s : contains p s = true <-> exists a b, s = a ++ p ++ b.
Proof.
  induction s as [|y s IH]; cbn [contains]; rewrite orb_true_iff, starts_iff.
  - split; [intros [(b & E)|C]; [exists [], b; exact E|discriminate]|]. intros (a & b & E). left. exists b. symmetry in E. apply app_eq_nil in E as [-> E]. now symmetry.
  - rewrite IH. split.
    + intros [(b & E)|(a & b & ->)]; [exists [], b; exact E|exists (y :: a), b; reflexivity].
    + intros ([|z a] & b & E); [left; exists b; exact E|right]. exists a, b. cbn [app] in E. congruence.
Qed.
Lemma multi_iff v : multi v = true <-> has_backslash_u00 v.
Proof. apply contains_iff. Qed.
Lemma len_field n : n < 2 ^ 32 -> len_bits n = length_field n.
Proof.
  intros H. unfold len_bits, length_field, o32, bits_of_bytes. cbn [flat_map]. rewrite app_nil_r.
  assert (M : forall v, bits_of 8 (v mod 256) = bits_of 8 v).
  { intros v. apply bits_of_ext. intros i Hi. change 256 with (2 ^ 8). apply N.mod_pow2_bits_low. lia. }
  rewrite !M. rewrite <- !N.shiftr_div_pow2. change 24 with (N.of_nat 24). change 16 with (N.of_nat 16). change 8 with (N.of_nat 8).
  rewrite <- (bits_of_split 8 8 n). change (N.of_nat 16) with (N.of_nat (8 + 8)). rewrite <- (bits_of_split 8 (8 + 8) n). change (N.of_nat 24) with (N.of_nat (8 + (8 + 8))). rewrite <- (bits_of_split 8 (8 + (8 + 8)) n).
  change (8 + (8 + (8 + 8)))%nat with (30 + 2)%nat. rewrite bits_of_split. rewrite firstn_app, bits_of_length, Nat.sub_diag, firstn_all2 by (rewrite bits_of_length; lia).
  cbn [firstn]. rewrite app_nil_r. f_equal. rewrite N.shiftr_div_pow2. reflexivity.
Qed.

Theorem C89_layout : forall is_request h L d out, bohe_new is_request = Ok h -> Forall (octets L) d -> bohe_compress L h d = Ok out ->
  exists bs, Forall2 (layout L h) d bs /\ out = bytes_of_bits (concat bs).
Proof.
  intros is_request h L d out Eh Hd E. destruct (bohe_new_good _ _ Eh) as (ws & G & H256 & Hw).
  pose proof (compress_ok L h ws G H256 d (Forall_impl _ (octets_kv L) Hd)) as C. destruct (first_error L ws d) as [e|]; [congruence|].
  destruct C as (X & HX & E'). assert (out = bytes_of_bits X) by congruence. subst out. clear E E'.
  enough (A : exists bs, Forall2 (layout L h) d bs /\ X = concat bs) by (destruct A as (bs & A & ->); eauto).
  induction HX as [|k v s d R He Hs HR IH]; [exists []; split; [constructor|reflexivity]|].
  inversion Hd as [|? ? (Hk & Hv & _) Hd']; subst. cbn [fst snd] in *. destruct (IH Hd') as (bs & A & ->). clear IH HR.
  exists (head_bits L ws k v s :: bs). split; [constructor; [|exact A]|reflexivity]. clear A bs Hd Hd'.
  assert (TC : text_code ws v = coded_text h v).
  { unfold text_code, coded_text, bits_for. rewrite <- Hw by reflexivity. f_equal. clear - Hv Hw. induction Hv as [|c v Hc Hv IH]; [reflexivity|]. cbn [flat_map]. rewrite IH, Hw by lia. reflexivity. }
  assert (TB : text_octets ws v < 2 ^ 32 -> text_bits ws v = text_field h v).
  { intros H. unfold text_bits, text_field. rewrite len_field by exact H. unfold text_octets. rewrite TC, octets_len. reflexivity. }
  unfold kv_error in He. rewrite Hs in He. pose proof (multi_iff v) as Hm. unfold head_bits.
  destruct (index_of k id_table) as [i|] eqn:Ei.
  - pose proof (index_of_some _ _ _ Ei) as [Ni _]. assert (Hr : registered k) by (apply registered_index; eauto).
    replace (i + 1) with (N.of_nat (N.to_nat i) + 1) by lia. destruct (encoder L k) as [e|] eqn:Ee.
    + assert (B : binary L k) by (split; [exact Hr|congruence]). rewrite (sent_encoded L k v B) in Hs. destruct (N.ltb_spec (lenN s) (2 ^ 32)); [|discriminate].
      rewrite len_field by assumption. now apply layout_binary.
    + assert (B : ~ binary L k) by (intros [_ B]; congruence). destruct (N.ltb_spec (text_octets ws v) (2 ^ 32)); [|discriminate]. rewrite TB by assumption. now apply layout_text.
  - destruct (lenN k <? 256); [|discriminate]. cbn [andb] in He. destruct (N.ltb_spec (text_octets ws v) (2 ^ 32)); [|discriminate]. rewrite TB by assumption.
    apply layout_other; [now apply index_of_none|exact Hm].
Qed.
Print Assumptions C89_layout.

(** ** Losses and examples *)

Definition with_dict (L : library) (f : str -> list (str * option str)) : library :=
  mk_library (lib_date L) (lib_md5 L) (lib_accept L) f (lib_setcookie L) (lib_cookie L).

(** Different policies with the same octets: the suffix a is that of no suffix, and
    one token that is not in the list takes all others away. *)
Theorem C89_p3p_kept_refuted : exists f v1 v2 v3 v4, forall L,
  f v1 = [(lit "CP", Some (lit "NOI ALLa"))] /\ f v2 = [(lit "CP", Some (lit "NOIa ALL"))] /\
  encoded (with_dict L f) (lit "p3p") v1 = Ok [0; 4; 8] /\ encoded (with_dict L f) (lit "p3p") v2 = Ok [0; 4; 8] /\
  f v3 = [(lit "CP", Some (lit "NOI ALL XYZ"))] /\ f v4 = [] /\
  encoded (with_dict L f) (lit "p3p") v3 = Ok [0] /\ encoded (with_dict L f) (lit "p3p") v4 = Ok [0].
Proof.
  exists (fun v => match v with [] => [] | _ => [(lit "CP", Some v)] end), (lit "NOI ALLa"), (lit "NOIa ALL"), (lit "NOI ALL XYZ"), [].
  intros L. repeat split.
Qed.
Print Assumptions C89_p3p_kept_refuted.

Example C89_example_p3p : forall L, let f := fun _ : str => [(lit "CP", Some (lit "CURa ADMo OUR")); (lit "policyref", Some (lit "/w3c/p3p.xml"))] in
  NoDup (map fst (f [])) /\ Forall2 token_code (split_on 32 (lit "CURa ADMo OUR")) [48; 54; 96] /\
  encoded (with_dict L f) (lit "p3p") [] = Ok ([12] ++ lit "/w3c/p3p.xml" ++ [48; 54; 96]).
Proof.
  intros L f. split; [|split].
  - repeat constructor; cbn; intuition discriminate.
  - repeat constructor; apply octet_code; vm_compute; reflexivity.
  - vm_compute. reflexivity.
Qed.

Example C89_example_cachecontrol : let ds := [(0%nat, lit "private", None); (1%nat, lit "max-age", Some (lit "300")); (2%nat, lit "max-stale", None); (1%nat, lit "max-stale", Some (lit "9"))] in
  join [44] (map render ds) = lit "private, max-age=300,  max-stale, max-stale=9" /\ Forall clean ds /\
  says ds (lit "max-age") = 300 /\ says ds (lit "max-stale") = 1 /\ says ds (lit "min-fresh") = 0 /\
  (forall m v, In m (map lit ["max-age"; "max-stale"; "min-fresh"]%string) -> last_said m ds = Some v -> v <> [] /\ Forall digit v) /\
  number 300 [172; 2] /\ forall L, encoded L (lit "cache-control") (join [44] (map render ds)) = Ok (lit "_" ++ [172; 2; 1; 0; 0]).
Proof.
  cbv zeta. split; [vm_compute; reflexivity|]. split; [|split; [|split; [|split; [|split; [|split]]]]].
  - assert (W : forall s, forallb (fun c => (33 <=? c) && (c <=? 126) && negb (c =? 44) && negb ((65 <=? c) && (c <=? 90)) && negb (c =? 61)) s = true -> word s /\ ~ In 61 s).
    { intros s H. rewrite forallb_forall in H. split.
      - apply Forall_forall. intros c Hc. specialize (H c Hc). rewrite !andb_true_iff, !negb_true_iff in H. destruct H as ((((H1 & H2) & H3) & H4) & _).
        apply N.leb_le in H1, H2. apply N.eqb_neq in H3. split; [auto|]. split; [exact H3|]. intros [A B]. apply N.leb_le in A, B. rewrite A, B in H4. discriminate.
      - intros Hc. specialize (H 61 Hc). discriminate. }
    repeat (apply Forall_cons; [unfold clean, d_name; cbn [fst snd]; split; [|split]; first [exact I|apply W; vm_compute; reflexivity]|]). constructor.
  - vm_compute. reflexivity.
  - vm_compute. reflexivity.
  - vm_compute. reflexivity.
  - intros m v [<-|[<-|[<-|[]]]] E; vm_compute in E; try discriminate; match type of E with Some ?x = Some _ => assert (v = x) by congruence; subst v end;
      (split; [discriminate|repeat constructor; vm_compute; discriminate]).
  - apply (number_more 300); [lia|]. apply number_last. reflexivity.
  - intros L. vm_compute. reflexivity.
Qed.

Example C89_example : forall L, lib_accept L (lit "text/html, */*;q=0.5, image/png;q=0") = [(lit "text/html", true); (lit "*/*", true); (lit "image/png", false)] ->
  lib_date L (lit "Tue, 01 Jan 2013 00:00:00 GMT") = Some 1356998400%Z -> lib_md5 L (lit "tag") = repeat 7 16 ->
  encoded L (lit "accept") (lit "text/html, */*;q=0.5, image/png;q=0") = Ok (lit "text/html" ++ [0] ++ lit "*/*") /\
  encoded L (lit "date") (lit "Tue, 01 Jan 2013 00:00:00 GMT") = Ok [128; 147; 142; 218; 2] /\ number (1356998400 - 631152000) [128; 147; 142; 218; 2] /\
  encoded L (lit "etag") (lit "tag") = Ok ([1; 16] ++ repeat 7 16) /\
  has_backslash_u00 (lit "a\u00b") /\ ~ has_backslash_u00 (lit "a" ++ [0] ++ lit "b").
Proof.
  intros L Ha Hd Hm. split; [|split; [|split; [|split; [|split]]]].
  - rewrite C89_accept by (now left). rewrite Ha. reflexivity.
  - change (encoded L (lit "date")) with (enc_date L). unfold enc_date. rewrite Hd. vm_compute. reflexivity.
  - apply number_of. vm_compute. reflexivity.
  - apply C89_etag; [now left|]. exists [1]. split; [now constructor|]. change (split_on 0 (lit "tag")) with [lit "tag"]. cbn [flat_map]. rewrite Hm. reflexivity.
  - exists (lit "a"), (lit "b"). reflexivity.
  - intros H. apply multi_iff in H. discriminate.
Qed.
