(** * headerdiff: when the encoder produces a frame. *)
From Coq Require Import String List NArith ZArith Bool Arith Lia ZifyN ZifyNat Permutation.
From Verif Require Import PyBase NBits HTTP2_Int PyStr HD_Model HD_Int HD_Sim HD_Step HD_Spec HD_Session.
Import ListNotations.
Open Scope N_scope.
Open Scope py_scope.

Lemma first_write byte p v : In (byte, p) first_octets -> exists s, hd_write_int byte p v = Ok s.
Proof.
  intros Hi.
  assert (Hp : small_prefix p /\ byte + N.ones p < 256 /\ byte mod 2 ^ p = 0).
  { unfold first_octets in Hi. simpl in Hi. unfold small_prefix.
    repeat (destruct Hi as [Hi|Hi]; [injection Hi as <- <-; split; [simpl; tauto|]; vm_compute; auto|]). contradiction. }
  destruct Hp as (H1 & H2 & H3).
  destruct (hd_write_read_int p byte 0 v H1 H2 H3) as (s & E & _). eauto.
Qed.
Lemma zero_write byte v : byte < 256 -> exists s, hd_write_int byte 0 v = Ok s.
Proof.
  intros Hb. destruct (hd_write_read_int 0 byte 0 v) as (s & E & _);
    [now left|change (N.ones 0) with 0; lia|apply N.mod_1_r|]. eauto.
Qed.

Lemma filter_shorter {A} (f : A -> bool) l : (length (filter f l) <= length l)%nat.
Proof. induction l as [|x l IH]; cbn; [lia|]. destruct (f x); cbn; lia. Qed.

Section Total.
  Variable ord : nat -> list ih -> list ih.
  Hypothesis ord_perm : forall t l, Permutation (ord t l) l.
  Variable cfg : hcfg.
  Hypothesis Hstr : strings_ok cfg.
  Hypothesis Hwr : forall s, exists bs, h_write cfg s = Ok bs.

  Lemma encode_one_total q e d n v : hsim cfg e d -> N.of_nat (length (he_tbl e)) <= 16447 ->
    exists e' s, encode_one ord cfg q e (n, v) = (e', Ok s) /\ (length (he_tbl e') <= S (length (he_tbl e)))%nat.
  Proof.
    intros Hs Hlen. unfold encode_one.
    destruct (determine ord cfg n v q e) as [r e1] eqn:D.
    apply (determine_spec ord ord_perm) in D. destruct D as (_ & _ & _ & D).
    destruct D as [(h & F & -> & Dt)|(F & Dt & C)].
    - cbn [hr_rep ref_of hr_ref bind].
      destruct (find_full_some _ _ _ F) as [Hi _].
      pose proof (ts_nth _ _ (s_tbl _ _ _ Hs) h Hi) as Hn.
      assert (Hix : (i_index h < length (he_tbl e))%nat).
      { rewrite (ts_len _ _ (s_tbl _ _ _ Hs)). apply nth_error_Some. congruence. }
      assert (Hl1 : (length (he_tbl e1) <= S (length (he_tbl e)))%nat).
      { rewrite Dt. unfold touch. rewrite map_length. lia. }
      destruct (Nat.ltb_spec (i_index h) 64) as [Hlt|Hge].
      + rewrite lor128 by lia. rewrite pack_B_ok by lia. eauto.
      + destruct (hd_write_read_14 192 (N.of_nat (i_index h - 64))) as (b0 & b1 & W & _);
          [reflexivity|reflexivity|lia|]. rewrite W. eauto.
    - assert (F1 : find_full (n ++ v) (he_tbl e1) = None) by now rewrite Dt.
      assert (HS : hr_idx r = Substitution -> exists x, hr_ref r = Some x /\ In x (he_tbl e1)).
      { rewrite Dt. destruct C; cbn; intros E; try discriminate; eauto. }
      pose proof (upd_eq (hr_idx r) (hr_ref r) n v e1 F1 HS) as HU.
      assert (Hl2 : (length (he_tbl (e_apply (hr_idx r) (hr_ref r) n v e1)) <= S (length (he_tbl e)))%nat).
      { unfold e_apply. rewrite <- Dt. destruct (hr_idx r); cbn.
        - lia.
        - rewrite app_length. cbn. lia.
        - destruct (hr_ref r); cbn; [|lia]. rewrite app_length. cbn.
          pose proof (filter_shorter (fun x => negb (str_eqb (i_full x) (i_full i))) (he_tbl e1)). lia. }
      assert (Hrep : hr_rep r <> RepIndexed) by (destruct C; discriminate).
      unfold ref_of. cbv zeta in HU |- *.
      set (e2 := e_apply (hr_idx r) (hr_ref r) n v e1) in *.
      destruct (hr_rep r) eqn:Er; [|contradiction|].
      + rewrite HU, andb_false_r.
        change (match hr_idx r with NoIndexing => 5 | _ => 4 end) with (idx_prefix (hr_idx r)).
        assert (Hoct : In (idx_byte (hr_idx r), idx_prefix (hr_idx r)) first_octets) by (destruct (hr_idx r); cbn; auto).
        assert (Hbl : idx_byte (hr_idx r) < 256) by (destruct (hr_idx r); reflexivity).
        destruct (Hwr n) as (wn & Wn). destruct (Hwr v) as (wv & Wv). rewrite Wn, Wv.
        assert (Hs2 : exists s2, match hr_idx r with
                  | Substitution => let* ref := match hr_ref r with Some h => Ok h | None => Err AttributeError end in
                                    hd_write_int (idx_byte (hr_idx r)) 0 (N.of_nat (i_index ref))
                  | _ => Ok [] end = Ok s2).
        { destruct (hr_idx r) eqn:Ei; [eauto|eauto|]. destruct (HS eq_refl) as (x & -> & _). cbn [bind].
          apply zero_write. reflexivity. }
        destruct Hs2 as (s2 & E2). rewrite E2.
        destruct (dget (e_names q e2) n) as [i|].
        * destruct (first_write _ _ (N.of_nat i + 1) Hoct) as (s1 & ->). cbn [bind]. eauto.
        * destruct (first_write _ _ 0 Hoct) as (s1 & ->). cbn [bind]. do 2 eexists. split; [reflexivity|].
          unfold set_e_names. destruct q; exact Hl2.
      + destruct C as [| | |ref k ix Hdl Hr Hrn Hk _ _]; try discriminate.
        cbn [hr_rep hr_ref hr_idx hr_len] in *. rewrite HU, Hdl. cbn [andb bind].
        change (match ix with NoIndexing => 5 | _ => 4 end) with (idx_prefix ix).
        assert (Hoct : In (N.lor (idx_byte ix) 64, idx_prefix ix) first_octets) by (destruct ix; cbn; tauto).
        assert (Hbl : N.lor (idx_byte ix) 64 < 256) by (destruct ix; reflexivity).
        destruct (first_write _ _ (N.of_nat (i_index ref)) Hoct) as (s1 & ->). cbn [bind].
        destruct (zero_write _ (N.of_nat k) Hbl) as (s2 & ->). cbn [bind].
        destruct (Hwr (skipn k v)) as (wv & ->). cbn [bind]. do 2 eexists. split; [reflexivity|].
        cbn. unfold touch. rewrite map_length. exact Hl2.
  Qed.

  Lemma encode_list_total q hs : forall e d, hsim cfg e d -> N.of_nat (length (he_tbl e) + length hs) <= 16447 ->
    exists e' s, encode_list ord cfg q e hs = (e', Ok s) /\ (length (he_tbl e') <= length (he_tbl e) + length hs)%nat.
  Proof.
    induction hs as [|[n v] hs IH]; intros e d Hs Hl; cbn [encode_list length] in *.
    - do 2 eexists. split; [reflexivity|]. lia.
    - destruct (encode_one_total q e d n v Hs) as (e1 & s1 & E1 & L1); [lia|].
      destruct (encode_one_ok ord ord_perm cfg Hstr _ _ _ _ _ _ _ Hs E1) as (d1 & h' & _ & S1 & _).
      destruct (IH e1 d1 S1) as (e2 & s2 & E2 & L2); [lia|].
      rewrite E1, E2. cbn [bind]. do 2 eexists. split; [reflexivity|]. lia.
  Qed.

  Lemma payload_total q e d hs : hsim cfg e d -> (length hs <= 255)%nat -> N.of_nat (length (he_tbl e) + length hs) <= 16447 ->
    exists e' s, hd_payload ord cfg q e hs = (e', Ok s) /\ (length (he_tbl e') <= length (he_tbl e) + length hs)%nat.
  Proof.
    intros Hs Hn Hl. unfold hd_payload.
    rewrite pack_B_ok by (unfold lenN; lia).
    set (e0 := set_e_tbl e (map grow_age (he_tbl e)) (he_size e)).
    assert (Hs0 : hsim cfg e0 d).
    { destruct Hs as [T S M R1 R2]. split; cbn; auto. apply tsim_map; auto. }
    assert (Hl0 : length (he_tbl e0) = length (he_tbl e)) by (cbn; apply map_length).
    destruct (encode_list_total q hs e0 d Hs0) as (e' & s & E & L); [lia|].
    rewrite E. cbn [bind]. do 2 eexists. split; [reflexivity|]. lia.
  Qed.
End Total.
