(** * Property C117: how large a headerdiff frame can get. *)
From Coq Require Import String List NArith ZArith Bool Arith Lia Permutation.
From Verif Require Import PyBase PyStr HD_Model HD_Spec HD_Sim HD_Choice Prop_HD_Choice.
Import ListNotations.
Open Scope N_scope.
Open Scope py_scope.

(** ** Specification *)

(** Octets of a number written with seven bits each, of a text, and of a header sent
    in full after [before] headers in the session: one octet, the number of the name
    or the name, the index of a header to be replaced, the value. *)
Definition number_cost (v : N) : N := N.log2 v / 7 + 1.
Definition text_cost (s : str) : N := number_cost (lenN s) + lenN s.
Definition header_cost (before : N) (h : hdr) : N :=
  1 + N.max (number_cost (before + 39)) (text_cost (fst h)) + number_cost before + text_cost (snd h).
Fixpoint total (before : N) (hs : list hdr) : N :=
  match hs with [] => 0 | h :: hs => header_cost before h + total (before + 1) hs end.

(** The frames of a session, each within its bound. *)
Fixpoint within (before : N) (ms : list msg) (fs : list str) : Prop :=
  match ms, fs with
  | [], [] => True
  | (_, hs) :: ms, f :: fs => lenN f <= 9 + total before hs /\ within (before + lenN hs) ms fs
  | _, _ => False
  end.

(** ** Proofs *)

Lemma lenN_app {A} (a b : list A) : lenN (a ++ b) = lenN a + lenN b.
Proof. unfold lenN. rewrite app_length. lia. Qed.
Lemma pack_B_len n s : pack_B n = Ok s -> lenN s = 1.
Proof. unfold pack_B. destruct (n <? 256); intros E; [|discriminate]. now injection E as <-. Qed.
Lemma pack_H_len n s : pack_H n = Ok s -> lenN s = 2.
Proof. unfold pack_H. destruct (n <? 65536); intros E; [|discriminate]. now injection E as <-. Qed.
Lemma number_cost_mono a b : a <= b -> number_cost a <= number_cost b.
Proof. intros H. unfold number_cost. apply N.add_le_mono_r. apply N.div_le_mono; [lia|]. now apply N.log2_le_mono. Qed.
Lemma number_cost_pos a : 1 <= number_cost a.
Proof. unfold number_cost. lia. Qed.
Lemma number_cost_le k : 0 < k -> number_cost k <= k.
Proof.
  intros H. unfold number_cost. destruct (N.lt_ge_cases k 2) as [L|L]; [replace k with 1 by lia; vm_compute; discriminate|].
  pose proof (N.log2_lt_lin k H). assert (N.log2 k / 7 <= N.log2 k) by (apply N.div_le_upper_bound; lia). lia.
Qed.

Lemma digits_len : forall fuel v s, 0 < v -> hd_digits fuel v = Ok s -> lenN s = number_cost v.
Proof.
  induction fuel as [|f IH]; intros v s Hv E; cbn [hd_digits] in E; rewrite (proj2 (N.eqb_neq v 0)) in E by lia; [discriminate|].
  set (q := v / 128) in *. destruct (pack_B _) as [a|] eqn:Ea; [|discriminate]. cbn [bind] in E. destruct (hd_digits f q) as [t|] eqn:Et; [|discriminate]. cbn [bind] in E. injection E as <-.
  rewrite lenN_app, (pack_B_len _ _ Ea). destruct (N.eq_dec q 0) as [Hq|Hq].
  - rewrite Hq in Et. assert (t = []) as -> by (destruct f; cbn in Et; congruence). cbn.
    assert (v < 128) by (apply (N.div_small_iff v 128); [lia|exact Hq]). unfold number_cost.
    assert (N.log2 v < 7) by (apply N.log2_lt_pow2; [lia|exact H]). rewrite N.div_small by exact H0. reflexivity.
  - rewrite (IH q t ltac:(lia) Et). unfold number_cost. unfold q. change 128 with (2 ^ 7). rewrite <- N.shiftr_div_pow2, N.log2_shiftr.
    assert (7 <= N.log2 v). { apply N.log2_le_pow2; [lia|]. change (2 ^ 7) with 128. unfold q in Hq. destruct (N.lt_ge_cases v 128) as [L|L]; [|exact L]. now rewrite N.div_small in Hq. }
    replace (N.log2 v) with (N.log2 v - 7 + 1 * 7) at 2 by lia. rewrite N.div_add by lia. lia.
Qed.
Lemma write0_len b v s : hd_write_int b 0 v = Ok s -> lenN s = number_cost v.
Proof.
  unfold hd_write_int. cbn [HD_MAX bind]. destruct (v <? 0) eqn:E0; [apply N.ltb_lt in E0; lia|]. cbn [N.ltb]. change (0 <? 0) with false. cbv iota. cbn [bind]. rewrite N.sub_0_r.
  destruct (N.eqb_spec v 0) as [->|Hv].
  - cbn. intros E. now injection E as <-.
  - cbn [bind]. destruct (hd_digits _ v) as [ds|] eqn:Ed; [|discriminate]. cbn [bind app]. intros E. injection E as <-. eapply digits_len; [|exact Ed]. lia.
Qed.
Lemma write_len b p v s : In p [4; 5] -> hd_write_int b p v = Ok s -> lenN s <= 1 + number_cost v.
Proof.
  intros Hp. unfold hd_write_int. assert (exists m, HD_MAX p = Ok m /\ (p <=? 8) = true /\ (0 <? p) = true) as (m & -> & -> & ->) by (destruct Hp as [<-|[<-|[]]]; eexists; repeat split; reflexivity).
  cbn [bind]. destruct (N.ltb_spec v m) as [L|L]; intros E; [apply pack_B_len in E; pose proof (number_cost_pos v); lia|].
  destruct (pack_B (N.lor b m)) as [x|] eqn:Ex; [|discriminate]. cbn [bind] in E. apply pack_B_len in Ex.
  destruct (N.eqb_spec (v - m) 0) as [Hz|Hz].
  - rewrite Hz in E. cbn in E. injection E as <-. rewrite lenN_app, Ex. pose proof (number_cost_pos v). change (lenN [0]) with 1. lia.
  - cbn [bind] in E. destruct (hd_digits _ (v - m)) as [ds|] eqn:Ed; [|discriminate]. cbn [bind app] in E. injection E as <-. rewrite lenN_app, Ex.
    apply digits_len in Ed; [|lia]. rewrite Ed. pose proof (number_cost_mono (v - m) v ltac:(lia)). lia.
Qed.
Lemma write14_len b v s : b < 256 -> 192 <= b -> hd_write_int b 14 v = Ok s -> lenN s <= 2.
Proof.
  intros _ Hb. unfold hd_write_int. cbn [HD_MAX bind]. destruct (v <? 16383); intros E.
  - change (14 <=? 8) with false in E. cbv iota in E. apply pack_H_len in E. lia.
  - change (0 <? 14) with true in E. cbv iota in E. destruct (pack_B (N.lor b 16383)) as [x|] eqn:Ex; [|discriminate]. exfalso. unfold pack_B in Ex.
    destruct (N.ltb_spec (N.lor b 16383) 256) as [L|L]; [|discriminate].
    assert (N.testbit (N.lor b 16383) 13 = true) by (rewrite N.lor_spec; apply orb_true_r).
    assert (N.testbit (N.lor b 16383) 13 = false); [|congruence]. destruct (N.eq_dec (N.lor b 16383) 0) as [->|Hz]; [reflexivity|]. apply N.bits_above_log2.
    apply N.log2_lt_pow2; [lia|]. eapply N.lt_trans; [exact L|]. reflexivity.
Qed.
Lemma plain_len s t : hd_write_plain s = Ok t -> lenN t = text_cost s.
Proof.
  unfold hd_write_plain. destruct (hd_write_int 0 0 (lenN s)) as [b|] eqn:Eb; [|discriminate]. cbn [bind]. intros E. injection E as <-. rewrite lenN_app, (write0_len _ _ _ Eb). reflexivity.
Qed.

Lemma position_lt n : forall l i, position n l = Some i -> (i < length l)%nat.
Proof. induction l as [|m l IH]; intros i E; cbn [position] in E; [discriminate|]. destruct (str_eqb n m); [injection E as <-; cbn; lia|]. destruct (position n l) as [j|] eqn:Ej; [|discriminate]. cbn in E. injection E as <-. specialize (IH _ eq_refl). cbn. lia. Qed.

Section Worst.
  Context (max : Z) (delta : bool) (t : dtype).
  Let cfg := plain_cfg max delta t.

  Definition small (k : N) (w : view) : Prop := lenN (w_tbl w) <= k /\ lenN (w_req w) <= k + 39 /\ lenN (w_res w) <= k + 39.

  Lemma item_len q k w n v it s : small k w -> chosen cfg q w n v it -> item_octets cfg q w it = Ok s -> lenN s <= header_cost k (n, v).
  Proof.
    intros (Ht & Hr & Hs) C E. unfold header_cost. cbn [fst snd].
    pose proof (number_cost_pos k). pose proof (number_cost_pos (k + 39)). pose proof (number_cost_pos (lenN v)).
    assert (Hnm : forall i, position n (names q w) = Some i -> N.of_nat i + 1 <= k + 39).
    { intros i Ei. apply position_lt in Ei. unfold names in Ei. unfold lenN in Hr, Hs. destruct q; lia. }
    assert (Hb : forall st, In (bits st) [4; 5]) by (intros [| |i]; cbn; auto).
    assert (Lit : forall st, (forall i, st = Replacing i -> N.of_nat i <= k) -> item_octets cfg q w (Literal st n v) = Ok s ->
       lenN s <= 1 + N.max (number_cost (k + 39)) (text_cost n) + number_cost k + text_cost v).
    { clear E. intros st Hi E. cbn [item_octets] in E.
      destruct (match position n (names q w) with Some i => hd_write_int (flags st) (bits st) (N.of_nat i + 1) | None => _ end) as [a|] eqn:Ea; [|discriminate].
      assert (La : lenN a <= 1 + N.max (number_cost (k + 39)) (text_cost n)).
      { destruct (position n (names q w)) as [i|] eqn:Ei.
        - apply write_len in Ea; [|apply Hb]. pose proof (number_cost_mono _ _ (Hnm i eq_refl)). lia.
        - destruct (hd_write_int (flags st) (bits st) 0) as [a1|] eqn:E1; [|discriminate]. cbn [bind] in Ea. destruct (h_write cfg n) as [a2|] eqn:E2; [|discriminate]. cbn [bind] in Ea. injection Ea as <-.
          apply plain_len in E2. rewrite lenN_app, E2. assert (lenN a1 = 1) as ->; [|lia].
          destruct st; cbn in E1; injection E1 as <-; reflexivity. }
      cbn [bind] in E. destruct (match st with Replacing i => _ | _ => _ end) as [b|] eqn:Eb; [|discriminate].
      assert (Lb : lenN b <= number_cost k).
      { destruct st as [| |i]; [injection Eb as <-; cbn; lia|injection Eb as <-; cbn; lia|]. apply write0_len in Eb. rewrite Eb. apply number_cost_mono. now apply Hi. }
      cbn [bind] in E. destruct (h_write cfg v) as [c|] eqn:Ec; [|discriminate]. cbn [bind] in E. injection E as <-. apply plain_len in Ec. rewrite !lenN_app, Ec. lia. }
    destruct C as [i x Hx _|_ _ _|i x kk st _ _ Hx _ Hsh Hk _ Hst|st _ _ Hst].
    - cbn [item_octets] in E. unfold text_cost.
      destruct (i <? 64)%nat; [assert (lenN s = 1) as -> by (injection E as <-; reflexivity)|assert (lenN s <= 2) by (eapply write14_len; [| |exact E]; lia)]; lia.
    - apply (Lit Forgotten); [intros i H2; discriminate H2|exact E].
    - cbn [item_octets] in E. destruct (hd_write_int (64 + flags st) (bits st) (N.of_nat i)) as [a|] eqn:Ea; [|discriminate]. cbn [bind] in E.
      destruct (hd_write_int (64 + flags st) 0 (N.of_nat kk)) as [b|] eqn:Eb; [|discriminate]. cbn [bind] in E.
      destruct (h_write cfg (skipn kk v)) as [c|] eqn:Ec; [|discriminate]. cbn [bind] in E. injection E as <-.
      apply write_len in Ea; [|apply Hb]. apply write0_len in Eb. apply plain_len in Ec. rewrite !lenN_app, Eb, Ec. unfold text_cost.
      assert (Hi : N.of_nat i <= k) by (assert (i < length (w_tbl w))%nat by (apply nth_error_Some; congruence); unfold lenN in Ht; lia).
      pose proof (number_cost_mono _ _ Hi). pose proof (number_cost_le (N.of_nat kk) ltac:(lia)).
      destruct Hsh as ((Hkv & _ & _) & _). assert (Lr : lenN (skipn kk v) = lenN v - N.of_nat kk) by (unfold lenN; rewrite skipn_length; lia).
      pose proof (number_cost_mono (lenN (skipn kk v)) (lenN v) ltac:(lia)). rewrite Lr in *. unfold lenN in Lr. assert (N.of_nat kk <= lenN v) by (unfold lenN; lia). lia.
    - apply (Lit st); [|exact E]. intros i ->. destruct Hst as [[_ H2]|[(_ & j & x & Hj & _ & _ & H2)|(_ & _ & H2)]]; try discriminate H2. injection H2 as <-.
      assert (i < length (w_tbl w))%nat by (apply nth_error_Some; congruence). unfold lenN in Ht. lia.
  Qed.

  Lemma update_len {A} (f : A -> A) : forall l i, length (update_nth i f l) = length l.
  Proof. induction l as [|x l IH]; intros [|i]; cbn; auto. Qed.
  Lemma learnt_len n l : lenN (learnt n l) <= lenN l + 1.
  Proof. unfold learnt. destruct (existsb _ _); [lia|]. rewrite lenN_app. change (lenN [n]) with 1. lia. Qed.
  Lemma stored_len n v st l : lenN (stored n v st l) <= lenN l + 1.
  Proof. destruct st; cbn [stored]; [lia| |]. - rewrite lenN_app. change (lenN [mk_entry n v 0 0]) with 1. lia. - unfold lenN. rewrite update_len. lia. Qed.
  Lemma small_after q k w n v it : small k w -> small (k + 1) (afterwards q w n v it).
  Proof.
    intros (Ht & Hr & Hs). pose proof (learnt_len n (w_req w)). pose proof (learnt_len n (w_res w)).
    assert (U : forall i (f : entry -> entry), lenN (update_nth i f (w_tbl w)) <= k) by (intros i f; unfold lenN in *; rewrite update_len; exact Ht).
    destruct it as [i|st a b|st i kk r]; cbn [afterwards]; unfold small; cbn [w_tbl w_req w_res].
    - specialize (U i (fun x => mk_entry (t_name x) (t_value x) 0 (t_uses x))). lia.
    - pose proof (stored_len n v st (w_tbl w)). destruct q; lia.
    - pose proof (stored_len n v st (update_nth i (fun x => mk_entry (t_name x) (t_value x) (t_age x) (S (t_uses x))) (w_tbl w))).
      specialize (U i (fun x => mk_entry (t_name x) (t_value x) (t_age x) (S (t_uses x)))). lia.
  Qed.
  Lemma says_len q w hs s w' : says cfg q w hs s w' -> forall k, small k w -> lenN s <= total k hs /\ small (k + lenN hs) w'.
  Proof.
    intros S. induction S as [w|w n v it s hs s' w' C O S IH]; intros k Hk.
    - cbn. split; [lia|]. now rewrite N.add_0_r.
    - destruct (IH (k + 1) (small_after q k w n v it Hk)) as [L H]. cbn [total]. rewrite lenN_app. pose proof (item_len q k w n v it s Hk C O). split; [lia|].
      assert (E : forall (l : list hdr) x, k + 1 + lenN l = k + lenN (x :: l)) by (intros l x; unfold lenN; cbn [length]; lia). rewrite (E hs (n, v)) in H. exact H.
  Qed.
  Lemma conversation_within w ms fs w' : conversation cfg w ms fs w' -> forall k, small k w -> within k ms fs.
  Proof.
    intros C. induction C as [w|w q hs s w1 ms f fs w2 len S _ Lp Ef C IH]; intros k Hk; cbn [within]; [exact I|].
    assert (Hk' : small k (older w)) by (destruct Hk as (A & B & D); unfold small, older; cbn [w_tbl w_req w_res]; unfold lenN in *; rewrite map_length; auto).
    destruct (says_len _ _ _ _ _ S k Hk') as [L H]. split; [|now apply IH]. subst f. apply pack_H_len in Lp. rewrite !lenN_app, Lp. unfold lenN in *. cbn [length]. lia.
  Qed.
End Worst.

Lemma start_small : small 0 at_start.
Proof. vm_compute. repeat split; discriminate. Qed.

(** ** C117 *)

(** No frame has more octets than nine and the headers of its message in full. *)
Theorem C117_frame_size : forall ord max delta t ms e fs, some_order ord -> enc_all ord (plain_cfg max delta t) henc_new ms = (e, Ok fs) ->
  within 0 ms fs.
Proof.
  intros ord max delta t ms e fs Ho E. destruct (C95_choice _ _ _ _ _ Ho E) as (w & C). eapply conversation_within; [exact C|exact start_small].
Qed.
Print Assumptions C117_frame_size.

(** In a session of up to 16344 headers a header takes no more than its name and value,
    two octets each for a name or a value below 16384 octets, and three. *)
Theorem C117_header_size : forall k n v, k <= 16344 -> lenN n < 16384 -> lenN v < 16384 -> header_cost k (n, v) <= 7 + lenN n + lenN v.
Proof.
  intros k n v Hk Hn Hv. assert (B : forall x, x < 16384 -> number_cost x <= 2) by (intros x Hx; apply (number_cost_mono x 16383); lia).
  unfold header_cost, text_cost. cbn [fst snd]. pose proof (B (k + 39) ltac:(lia)). pose proof (B k ltac:(lia)). pose proof (B (lenN n) Hn). pose proof (B (lenN v) Hv). lia.
Qed.
Print Assumptions C117_header_size.

(** The bound is met by a header with a new name that replaces another. *)
Example C117_met : exists e fs, enc_all (fun _ l => l) (plain_cfg 10 true DFull) henc_new
    [(true, [(lit "x", lit "abcdefgh")]); (true, []); (true, []); (true, [(lit "w", lit "12345678")])] = (e, Ok fs) /\
  map (@lenN N) fs = [21; 9; 9; 22] /\ 9 + total 1 [(lit "w", lit "12345678")] = 22.
Proof. do 2 eexists. split; [vm_compute; reflexivity|]. split; vm_compute; reflexivity. Qed.

(** The messages of C95's example. *)
Example C117_case : exists e fs, enc_all (fun _ l => l) (plain_cfg 30 true (DMax 1)) henc_new choice_messages = (e, Ok fs) /\
  map (@lenN N) fs = [27; 15; 40; 34; 20; 13] /\
  map (fun p => 9 + total (fst p) (snd (snd p))) (combine [0; 2; 4; 5; 6; 8] choice_messages) = [29; 33; 48; 35; 26; 17].
Proof. do 2 eexists. split; [vm_compute; reflexivity|]. split; vm_compute; reflexivity. Qed.
