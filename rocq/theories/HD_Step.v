(** * headerdiff: one header, one message. *)
From Coq Require Import String List NArith ZArith Bool Arith Lia ZifyN ZifyNat Permutation.
From Verif Require Import PyBase NBits HTTP2_Int PyStr HD_Model HD_Int HD_Sim.
Import ListNotations.
Open Scope N_scope.
Open Scope py_scope.

Lemma byte_enum (P : N -> bool) : forallb (fun i => P (N.of_nat i)) (seq 0 256) = true -> forall b, b < 256 -> P b = true.
Proof.
  intros H b Hb. rewrite forallb_forall in H. specialize (H (N.to_nat b)).
  rewrite N2Nat.id in H. apply H. apply in_seq. lia.
Qed.

Lemma indexed_short b : b < 256 -> 2 = b / 64 -> (0 <? N.land b 128) = true /\ (0 <? N.land b 64) = false /\ N.land b 63 = b - 128.
Proof.
  intros Hb E.
  assert (H : (negb (2 =? b / 64) || ((0 <? N.land b 128) && negb (0 <? N.land b 64) && (N.land b 63 =? b - 128)))%bool = true).
  { revert b Hb E. intros b Hb _. revert b Hb. apply byte_enum. vm_compute. reflexivity. }
  rewrite <- E, N.eqb_refl in H. cbn [negb orb] in H. rewrite !andb_true_iff in H.
  destruct H as ((H1 & H2) & H3). apply negb_true_iff in H2. apply N.eqb_eq in H3. auto.
Qed.

Lemma indexed_long b : b < 256 -> b / 64 = 3 -> (0 <? N.land b 128) = true /\ (0 <? N.land b 64) = true.
Proof.
  intros Hb E.
  assert (H : (negb (b / 64 =? 3) || ((0 <? N.land b 128) && (0 <? N.land b 64)))%bool = true).
  { revert b Hb E. intros b Hb _. revert b Hb. apply byte_enum. vm_compute. reflexivity. }
  rewrite E in H. cbn [N.eqb Pos.eqb negb orb] in H. now rewrite andb_true_iff in H.
Qed.

Lemma at_index_ok {A} (l : list A) i x : nth_error l i = Some x -> at_index l (N.of_nat i) = Ok x.
Proof. intros H. unfold at_index. now rewrite nthN_nth, Nat2N.id, H. Qed.

Section Step.
  Variable ord : nat -> list ih -> list ih.
  Hypothesis ord_perm : forall t l, Permutation (ord t l) l.
  Variable cfg : hcfg.
  Hypothesis Hstr : strings_ok cfg.

  Definition step_ok (q : bool) (e' : henc) (d : hdec) (n v : str) (s : str) : Prop :=
    exists d' h', (forall rest, decode_one cfg q d (s ++ rest) = (d', Ok (h', rest))) /\ hsim cfg e' d' /\
      fst h' ++ snd h' = n ++ v /\ (h' = (n, v) \/ In h' (hd_tbl d)) /\
      (forall x, In x (hd_tbl d') -> x = (n, v) \/ In x (hd_tbl d)).

  (** How the decoder sees an integer written at the start of a header. *)
  Lemma first_int byte p v s : In (byte, p) first_octets -> hd_write_int byte p v = Ok s ->
    exists b s', s = b :: s' /\ byte <= b <= byte + N.ones p /\
      forall rest, hd_read_int b p (s' ++ rest) = Ok (v, rest).
  Proof.
    intros Hi E.
    assert (Hp : small_prefix p /\ byte + N.ones p < 256 /\ byte mod 2 ^ p = 0 /\ 0 < p).
    { unfold first_octets in Hi. simpl in Hi. unfold small_prefix.
      repeat (destruct Hi as [Hi|Hi]; [injection Hi as <- <-; split; [simpl; tauto|]; vm_compute; auto|]). contradiction. }
    destruct Hp as (H1 & H2 & H3 & H4).
    destruct (hd_write_read_int p byte 0 v H1 H2 H3) as (bs & E' & _ & _ & Hb & R).
    assert (bs = s) by congruence. subst bs.
    destruct (Hb H4) as (b & s' & Es & Hbb). exists b, s'. split; [exact Es|]. split; [exact Hbb|].
    intros rest. specialize (R rest). rewrite Es in R. unfold hd_read_at in R.
    destruct (N.eqb_spec p 0); [lia|]. cbn [app hd_byte bind] in R. exact R.
  Qed.

  Lemma zero_int byte other v s : byte < 256 -> hd_write_int byte 0 v = Ok s -> forall rest, hd_read_int other 0 (s ++ rest) = Ok (v, rest).
  Proof.
    intros Hb E rest.
    destruct (hd_write_read_int 0 byte other v) as (bs & E' & _ & _ & _ & R);
      [now left|change (N.ones 0) with 0; lia|apply N.mod_1_r|].
    assert (bs = s) by congruence. subst bs. exact (R rest).
  Qed.

  Lemma max_ok e d : hsim cfg e d -> (h_max cfg <? hd_size d)%Z = false.
  Proof. intros H. destruct H. apply Z.ltb_ge. lia. Qed.

  Definition idx_byte (ix : indexing) : N := match ix with NoIndexing => 0 | Incremental => 32 | Substitution => 48 end.
  Definition idx_prefix (ix : indexing) : N := match ix with NoIndexing => 5 | _ => 4 end.

  (** The decoder's table after a header with the given indexing. *)
  Definition d_apply (ix : indexing) (ri : nat) (n v : str) (d : hdec) : hdec :=
    match ix with
    | NoIndexing => d
    | Incremental => set_d_tbl d (hd_tbl d ++ [(n, v)]) (hd_size d + zlen v)
    | Substitution =>
        match nth_error (hd_tbl d) ri with
        | Some h => set_d_tbl d (update_nth ri (fun _ => (n, v)) (hd_tbl d)) (hd_size d + (zlen v - zlen (snd h)))
        | None => d
        end
    end.

  Definition e_apply (ix : indexing) (ref : option ih) (n v : str) (e : henc) : henc :=
    match ix, ref with
    | Incremental, _ => set_e_tbl e (he_tbl e ++ [new_ih n v (length (he_tbl e))]) (he_size e + zlen v)
    | Substitution, Some r =>
        set_e_tbl e (filter (fun x => negb (str_eqb (i_full x) (i_full r))) (he_tbl e) ++ [new_ih n v (i_index r)])
          (he_size e - zlen (i_value r) + zlen v)
    | _, _ => e
    end.

  Lemma apply_ok ix ref n v e d : hsim cfg e d -> (forall h, In h (he_tbl e) -> i_full h <> n ++ v) ->
    (ix = Incremental -> he_size e + zlen v < h_max cfg)%Z ->
    (ix = Substitution -> exists r, ref = Some r /\ In r (he_tbl e) /\ (zlen v - zlen (i_value r) < h_max cfg - he_size e)%Z) ->
    hsim cfg (e_apply ix ref n v e) (d_apply ix (match ref with Some r => i_index r | None => O end) n v d) /\
    forall x, In x (hd_tbl (d_apply ix (match ref with Some r => i_index r | None => O end) n v d)) -> x = (n, v) \/ In x (hd_tbl d).
  Proof.
    intros [T S M R1 R2] Hf Hi Hs. destruct ix; cbn [e_apply d_apply].
    - split; [split; assumption|auto].
    - specialize (Hi eq_refl). split.
      + split; cbn; [now apply tsim_add|lia|lia|assumption|assumption].
      + cbn. intros x Hx. apply in_app_or in Hx. destruct Hx as [Hx|[<-|[]]]; auto.
    - destruct (Hs eq_refl) as (r & -> & Hr & Hl).
      pose proof (ts_nth _ _ T r Hr) as En. rewrite En. split.
      + split; cbn; [now apply tsim_sub|lia|lia|assumption|assumption].
      + cbn. intros x Hx.
        apply nth_error_split in En. destruct En as (a & b & E & L). rewrite E in Hx |- *.
        rewrite <- L, update_nth_split in Hx.
        apply in_app_or in Hx. destruct Hx as [Hx|[<-|Hx]]; auto; right; apply in_or_app; [now left|right; now right].
  Qed.

  Lemma hsim_touch e d full f : (forall h, i_name (f h) = i_name h /\ i_value (f h) = i_value h /\ i_index (f h) = i_index h) ->
    hsim cfg e d -> hsim cfg (set_e_tbl e (touch f full (he_tbl e)) (he_size e)) d.
  Proof. intros Hf [T S M R1 R2]. split; cbn; auto. now apply tsim_touch. Qed.

  Lemma d_apply_names ix ri n v d : hd_req (d_apply ix ri n v d) = hd_req d /\ hd_res (d_apply ix ri n v d) = hd_res d.
  Proof. destruct ix; cbn; auto. destruct (nth_error (hd_tbl d) ri); auto. Qed.

  (** The decoder's side, once the name is known. *)
  Lemma finish_ok ix d b0 name ri pl v suffix s bs :
    (N.land b0 48 =? 32) = match ix with Incremental => true | _ => false end ->
    (N.land b0 48 =? 48) = match ix with Substitution => true | _ => false end ->
    h_write cfg suffix = Ok bs ->
    (if N.land b0 64 =? 64 then exists h, nth_error (hd_tbl d) ri = Some h /\ v = firstn pl (snd h) ++ suffix else v = suffix) ->
    (ix = Substitution -> exists h, nth_error (hd_tbl d) ri = Some h) ->
    (match
       (let* (v, s) := hd_literal cfg (bs ++ s) in
        let* v := if N.land b0 64 =? 64 then
                    let* h := at_index (hd_tbl d) (N.of_nat ri) in Ok (takeN (N.of_nat pl) (snd h) ++ v)
                  else Ok v in
        Ok (v, s))
     with
     | Err e => (d, Err e)
     | Ok (v, s) =>
         if N.land b0 48 =? 48 then
           match at_index (hd_tbl d) (N.of_nat ri) with
           | Err e => (d, Err e)
           | Ok h =>
               (set_d_tbl d (update_nth (N.to_nat (N.of_nat ri)) (fun _ => (name, v)) (hd_tbl d))
                  (hd_size d + (zlen v - zlen (snd h))), Ok ((name, v), s))
           end
         else if N.land b0 48 =? 32 then (set_d_tbl d (hd_tbl d ++ [(name, v)]) (hd_size d + zlen v), Ok ((name, v), s))
         else (d, Ok ((name, v), s))
     end) = (d_apply ix ri name v d, Ok ((name, v), s)).
  Proof.
    intros E1 E2 W Hv Hs. rewrite (literal_ok _ _ _ _ Hstr W). cbn [bind].
    assert (Hv' : (if N.land b0 64 =? 64 then
                    let* h := at_index (hd_tbl d) (N.of_nat ri) in Ok (takeN (N.of_nat pl) (snd h) ++ suffix)
                  else Ok suffix) = Ok v).
    { destruct (N.land b0 64 =? 64); [|now subst].
      destruct Hv as (h & Hn & ->). rewrite (at_index_ok _ _ _ Hn). cbn [bind]. now rewrite takeN_firstn, Nat2N.id. }
    rewrite Hv'. cbn [bind]. rewrite E1, E2. destruct ix; cbn [d_apply]; try reflexivity.
    destruct (Hs eq_refl) as (h & Hn). rewrite Hn, (at_index_ok _ _ _ Hn), Nat2N.id. reflexivity.
  Qed.

  Lemma upd_eq ix ref n v e : find_full (n ++ v) (he_tbl e) = None ->
    (ix = Substitution -> exists r, ref = Some r /\ In r (he_tbl e)) ->
    match ix with
    | Substitution =>
        let* r := match ref with Some h => Ok h | None => Err AttributeError end in
        let* _ := match find_full (i_full r) (he_tbl e) with Some _ => Ok tt | None => Err KeyError end in
        let t := filter (fun x => negb (str_eqb (i_full x) (i_full r))) (he_tbl e) in
        let t := filter (fun x => negb (str_eqb (i_full x) (n ++ v))) t ++ [new_ih n v (i_index r)] in
        Ok (48, set_e_tbl e t (he_size e - zlen (i_value r) + zlen v))
    | Incremental =>
        let k := length (he_tbl e) in
        let t := filter (fun x => negb (str_eqb (i_full x) (n ++ v))) (he_tbl e) ++ [new_ih n v k] in
        Ok (32, set_e_tbl e t (he_size e + zlen v))
    | NoIndexing => Ok (0, e)
    end = Ok (idx_byte ix, e_apply ix ref n v e).
  Proof.
    intros Hn Hs.
    assert (Hf : forall h, In h (he_tbl e) -> i_full h <> n ++ v) by (intros h; now apply find_full_none).
    destruct ix; cbn [idx_byte e_apply]; [reflexivity|now rewrite filter_absent|].
    destruct (Hs eq_refl) as (r & -> & Hr). cbn [bind].
    destruct (find_full (i_full r) (he_tbl e)) eqn:F; [|exfalso; now apply (find_full_none _ _ r F Hr)].
    cbn [bind]. rewrite (filter_absent (n ++ v)); [reflexivity|].
    intros h Hh. apply filter_In in Hh. apply Hf, Hh.
  Qed.

  Lemma nsim_add de dl n : nsim de dl -> dget de n = None -> nsim (dset de n (length de)) (dl ++ [n]).
  Proof.
    intros [L H] Hn. split.
    - rewrite (dset_new de n (length de) Hn), !app_length. cbn [length]. lia.
    - intros m i. rewrite dget_dset. destruct (str_eqb_spec m n) as [E|_].
      + intros [= <-]. subst m. rewrite L, nth_error_app2, Nat.sub_diag by lia. reflexivity.
      + intros E. apply H in E. rewrite nth_error_app1; [exact E|]. apply nth_error_Some. congruence.
  Qed.

  Lemma encode_one_ok q e d n v e' s : hsim cfg e d -> encode_one ord cfg q e (n, v) = (e', Ok s) ->
    step_ok q e' d n v s.
  Proof.
    intros Hs. unfold encode_one.
    destruct (determine ord cfg n v q e) as [r e1] eqn:D.
    apply (determine_spec ord ord_perm) in D. destruct D as (Dz & Dq & Dr & D).
    pose proof (max_ok e d Hs) as Hmax.
    destruct D as [(h & F & -> & Dt)|(F & Dt & C)].
    - (* indexed *)
      cbn [hr_rep ref_of hr_ref bind].
      destruct (find_full_some _ _ _ F) as [Hi Hfull].
      pose proof (ts_nth _ _ (s_tbl _ _ _ Hs) h Hi) as Hn.
      intros E.
      assert (Hdec : hsim cfg e1 d).
      { destruct Hs as [T S M R1 R2]. split; rewrite ?Dt, ?Dz, ?Dq, ?Dr; auto.
        apply tsim_touch; [intros; auto|exact T]. }
      assert (Hx : forall s', s' = s -> (forall rest, decode_one cfg q d (s' ++ rest) = (d, Ok ((i_name h, i_value h), rest))) ->
                   step_ok q e1 d n v s).
      { intros s' <- Hd. exists d, (i_name h, i_value h). split; [exact Hd|]. split; [exact Hdec|].
        split; [exact Hfull|]. split; [right; eapply nth_error_In, Hn|auto]. }
      destruct (Nat.ltb_spec (i_index h) 64) as [Hlt|Hge].
      + rewrite lor128 in E by lia. rewrite pack_B_ok in E by lia.
        assert (e' = e1) by congruence. subst e'. apply (Hx [128 + N.of_nat (i_index h)]); [congruence|].
        intros rest. unfold decode_one. rewrite Hmax. cbn [app hd_byte].
        destruct (indexed_short (128 + N.of_nat (i_index h))) as (-> & -> & ->); [lia| |].
        { apply N.div_unique with (r := N.of_nat (i_index h)); lia. }
        cbn [bind]. replace (128 + N.of_nat (i_index h) - 128) with (N.of_nat (i_index h)) by lia.
        rewrite (at_index_ok _ _ _ Hn). reflexivity.
      + assert (Hv : N.of_nat (i_index h - 64) < 16383).
        { destruct (N.lt_ge_cases (N.of_nat (i_index h - 64)) 16383) as [|G]; [assumption|].
          rewrite hd_write_14_large in E by exact G. discriminate. }
        destruct (hd_write_read_14 192 (N.of_nat (i_index h - 64))) as (b0 & b1 & W & Hb0 & Hb1 & Hb & R);
          [reflexivity|reflexivity|exact Hv|].
        rewrite W in E. assert (e' = e1) by congruence. subst e'. apply (Hx [b0; b1]); [congruence|].
        intros rest. unfold decode_one. rewrite Hmax. cbn [app hd_byte].
        destruct (indexed_long b0) as (-> & ->); [exact Hb0|exact Hb|].
        rewrite R. cbn [bind]. replace (N.of_nat (i_index h - 64) + 64) with (N.of_nat (i_index h)) by lia.
        rewrite (at_index_ok _ _ _ Hn). reflexivity.
    - assert (Hf : forall h, In h (he_tbl e1) -> i_full h <> n ++ v).
      { intros h Hh. rewrite Dt in Hh. now apply (find_full_none _ _ h F). }
      assert (Hs1 : hsim cfg e1 d).
      { destruct Hs as [T S M R1 R2]. split; rewrite ?Dt, ?Dz, ?Dq, ?Dr; auto. }
      assert (F1 : find_full (n ++ v) (he_tbl e1) = None) by now rewrite Dt.
      assert (HC : choice cfg n v e1 r).
      { destruct C; constructor; rewrite ?Dt, ?Dz; auto. }
      clear C Dt Dz Dq Dr F Hs e. rename e1 into e, Hs1 into Hs.
      assert (HS : hr_idx r = Substitution -> exists x, hr_ref r = Some x /\ In x (he_tbl e) /\
                    (zlen v - zlen (i_value x) < h_max cfg - he_size e)%Z).
      { destruct HC; cbn; intros E; try discriminate; eauto. }
      assert (HI : hr_idx r = Incremental -> (he_size e + zlen v < h_max cfg)%Z).
      { destruct HC; cbn; intros E; try discriminate; eauto. }
      pose proof (apply_ok (hr_idx r) (hr_ref r) n v e d Hs Hf HI HS) as [Hap Hin].
      assert (HU := upd_eq (hr_idx r) (hr_ref r) n v e F1
                      (fun E => match HS E with ex_intro _ x (conj A (conj B _)) => ex_intro _ x (conj A B) end)).
      assert (Hrep : hr_rep r <> RepIndexed) by (destruct HC; discriminate).
      unfold ref_of. cbv zeta in HU |- *.
      destruct (hr_rep r) eqn:Er; [|contradiction|].
      + (* literal *)
        rewrite HU. rewrite andb_false_r.
        change (match hr_idx r with NoIndexing => 5 | _ => 4 end) with (idx_prefix (hr_idx r)).
        set (ix := hr_idx r) in *. set (ref := hr_ref r) in *.
        set (e2 := e_apply ix ref n v e) in *.
        set (ri := match ref with Some x => i_index x | None => O end) in *.
        assert (Hoct : In (idx_byte ix, idx_prefix ix) first_octets) by (destruct ix; cbn; auto).
        assert (Hbl : idx_byte ix < 256) by (destruct ix; reflexivity).
        assert (Hname : exists d1,
          forall s0, (match dget (e_names q e2) n with
           | Some i => (e2, hd_write_int (idx_byte ix) (idx_prefix ix) (N.of_nat i + 1))
           | None => match (let* s := hd_write_int (idx_byte ix) (idx_prefix ix) 0 in
                            let* t := h_write cfg n in Ok (s ++ t)) with
                     | Err x => (e2, Err x)
                     | Ok s => (set_e_names q e2 (dset (e_names q e2) n (length (e_names q e2))), Ok s)
                     end
           end) = s0 -> forall s1, snd s0 = Ok s1 ->
           exists b0 s1', s1 = b0 :: s1' /\ idx_byte ix <= b0 <= idx_byte ix + N.ones (idx_prefix ix) /\
             hsim cfg (fst s0) (d_apply ix ri n v d1) /\ hd_tbl d1 = hd_tbl d /\ hd_size d1 = hd_size d /\
             forall rest, decode_name cfg q d b0 (idx_prefix ix) (match ix with Substitution => true | _ => false end) (s1' ++ rest) =
               (d1, match ix with Substitution => let* (k, s) := hd_read_int b0 0 rest in Ok (n, k, 0, s)
                    | _ => Ok (n, 0, 0, rest) end)).
        { assert (Hn : nsim (e_names q e2) (d_names q d)).
          { destruct Hs as [T S M R1 R2]. unfold e_names, d_names.
            assert (he_req e2 = he_req e /\ he_res e2 = he_res e) as [A B].
            { unfold e2, e_apply. destruct ix; try destruct ref; auto. }
            destruct q; [now rewrite A|now rewrite B]. }
          destruct (dget (e_names q e2) n) as [i|] eqn:G.
          - exists d. intros s0 <- s1 E. cbn [snd fst] in *.
            destruct (first_int _ _ _ _ Hoct E) as (b0 & s1' & -> & Hb & R).
            exists b0, s1'. split; [reflexivity|]. split; [exact Hb|]. split; [exact Hap|].
            split; [reflexivity|]. split; [reflexivity|].
            intros rest. unfold decode_name.
            destruct (flags_ok _ _ _ Hoct Hb) as (_ & -> & _ & _ & _).
            assert (64 <=? idx_byte ix = false) as -> by (destruct ix; reflexivity).
            rewrite R. destruct (N.eqb_spec (N.of_nat i + 1) 0); [lia|].
            replace (N.of_nat i + 1 - 1) with (N.of_nat i) by lia.
            rewrite (at_index_ok _ _ n) by (apply Hn; exact G). cbn [bind].
            destruct ix; reflexivity.
          - exists (add_d_name q d n). intros s0 <- s1.
            destruct (hd_write_int (idx_byte ix) (idx_prefix ix) 0) as [sa|] eqn:W1; [|discriminate].
            cbn [bind]. destruct (h_write cfg n) as [sb|] eqn:W2; [|discriminate]. cbn [bind snd fst].
            intros E. assert (s1 = sa ++ sb) as -> by congruence. clear E.
            destruct (first_int _ _ _ _ Hoct W1) as (b0 & s1' & -> & Hb & R).
            exists b0, (s1' ++ sb). split; [reflexivity|]. split; [exact Hb|].
            assert (hd_tbl (add_d_name q d n) = hd_tbl d /\ hd_size (add_d_name q d n) = hd_size d) as [A B]
              by (unfold add_d_name; destruct q; auto).
            split; [|split; [exact A|split; [exact B|]]].
            { pose proof (d_apply_names ix ri n v d) as [P1 P2].
              pose proof (d_apply_names ix ri n v (add_d_name q d n)) as [P3 P4].
              assert (hd_tbl (d_apply ix ri n v (add_d_name q d n)) = hd_tbl (d_apply ix ri n v d) /\
                      hd_size (d_apply ix ri n v (add_d_name q d n)) = hd_size (d_apply ix ri n v d)) as [P5 P6].
              { unfold d_apply. destruct ix; cbn; rewrite ?A, ?B; auto. destruct (nth_error (hd_tbl d) ri); cbn; auto. }
              destruct Hap as [T S M R1 R2]. rewrite P1 in R1. rewrite P2 in R2.
              pose proof (nsim_add _ _ n Hn G) as NA.
              split; rewrite ?P3, ?P4, ?P5, ?P6; unfold set_e_names, add_d_name, e_names, d_names in *;
                destruct q; cbn in *; auto. }
            intros rest. unfold decode_name.
            destruct (flags_ok _ _ _ Hoct Hb) as (_ & -> & _ & _ & _).
            assert (64 <=? idx_byte ix = false) as -> by (destruct ix; reflexivity).
            rewrite <- app_assoc, R. cbn [N.eqb]. rewrite (literal_ok _ _ _ _ Hstr W2). cbn [bind].
            destruct ix; reflexivity. }
        destruct Hname as (d1 & Hname).
        destruct (match dget (e_names q e2) n with Some _ => _ | None => _ end) as [e3 r1] eqn:EN.
        specialize (Hname _ eq_refl). cbn [fst snd] in Hname.
        intros E. assert (e3 = e') by congruence. subst e3. apply (f_equal snd) in E. cbn [snd] in E.
        apply bind_ok in E. destruct E as (s1 & E1 & E).
        apply bind_ok in E. destruct E as (s2 & E2 & E).
        apply bind_ok in E. destruct E as (s3 & E3 & E).
        assert (s = s1 ++ s2 ++ s3) as -> by congruence. clear E.
        destruct (Hname s1 E1) as (b0 & s1' & -> & Hb & Hsim' & Htd & Hzd & Hdn). clear Hname.
        destruct (flags_ok _ _ _ Hoct Hb) as (G1 & G2 & G3 & G4 & G5).
        exists (d_apply ix ri n v d1), (n, v).
        split; [|split; [exact Hsim'|split; [reflexivity|split; [now left|]]]].
        * intros rest. unfold decode_one. rewrite Hmax. cbn [app hd_byte]. rewrite G1. change (0 <? 0) with false. cbv iota.
          assert (G4' : (N.land b0 48 =? 32) = match ix with Incremental => true | _ => false end)
            by (rewrite G4; destruct ix; reflexivity).
          assert (G5' : (N.land b0 48 =? 48) = match ix with Substitution => true | _ => false end)
            by (rewrite G5; destruct ix; reflexivity).
          assert (G3' : (N.land b0 64 =? 64) = false) by (rewrite G3; destruct ix; reflexivity).
          rewrite G4' at 1. rewrite G5' at 1 2.
          replace (if ((match ix with Incremental => true | _ => false end) || (match ix with Substitution => true | _ => false end))%bool then 4 else 5)
            with (idx_prefix ix) by (destruct ix; reflexivity).
          rewrite <- !app_assoc, Hdn.
          assert (Hfin : (match ix with Substitution => let* (k, s) := hd_read_int b0 0 (s2 ++ s3 ++ rest) in Ok (n, k, 0, s)
                    | _ => Ok (n, 0, 0, s2 ++ s3 ++ rest) end) = Ok (n, N.of_nat (match ix with Substitution => ri | _ => 0%nat end), 0, s3 ++ rest)).
          { destruct ix.
            - assert (s2 = []) as -> by congruence. reflexivity.
            - assert (s2 = []) as -> by congruence. reflexivity.
            - destruct (HS eq_refl) as (x & Hx & _). unfold ri. rewrite Hx in *. cbn [bind] in E2.
              rewrite (zero_int _ b0 _ _ Hbl E2). reflexivity. }
          rewrite Hfin.
          replace (d_apply ix ri n v d1) with (d_apply ix (match ix with Substitution => ri | _ => 0%nat end) n v d1)
            by (destruct ix; reflexivity).
          apply (finish_ok ix d1 b0 n _ 0 v v rest s3 G4' G5' E3).
          -- rewrite G3'. reflexivity.
          -- intros Eix. rewrite Eix in *. destruct (HS eq_refl) as (x & Hx & Hin' & _). rewrite Htd.
             unfold ri. rewrite Hx. eexists. apply (ts_nth _ _ (s_tbl _ _ _ Hs)). exact Hin'.
        * intros x Hx. apply Hin.
          replace (hd_tbl (d_apply ix ri n v d)) with (hd_tbl (d_apply ix ri n v d1)); [exact Hx|].
          unfold d_apply. destruct ix; cbn; rewrite ?Htd; auto. destruct (nth_error (hd_tbl d) ri); auto.
      + (* delta *)
        destruct HC as [| | |ref k ix Hdl Hr Hrn Hk _ _]; try discriminate.
        cbn [hr_rep hr_ref hr_idx hr_len] in *. rewrite HU. rewrite Hdl. cbn [andb bind].
        change (match ix with NoIndexing => 5 | _ => 4 end) with (idx_prefix ix).
        set (e2 := e_apply ix (Some ref) n v e) in *.
        set (by0 := N.lor (idx_byte ix) 64).
        assert (Hoct : In (by0, idx_prefix ix) first_octets) by (unfold by0; destruct ix; cbn; tauto).
        assert (Hbl : by0 < 256) by (unfold by0; destruct ix; reflexivity).
        destruct (hd_write_int by0 (idx_prefix ix) (N.of_nat (i_index ref))) as [s1|] eqn:W1; [|discriminate].
        cbn [bind].
        destruct (hd_write_int by0 0 (N.of_nat k)) as [s2|] eqn:W2; [|discriminate]. cbn [bind].
        intros E. assert (Ee := f_equal fst E). apply (f_equal snd) in E. cbn [fst snd] in E, Ee. subst e'.
        apply bind_ok in E. destruct E as (s3 & E3 & E).
        assert (s = (s1 ++ s2) ++ s3) as -> by congruence. clear E.
        destruct (first_int _ _ _ _ Hoct W1) as (b0 & s1' & -> & Hb & R).
        destruct (flags_ok _ _ _ Hoct Hb) as (G1 & G2 & G3 & G4 & G5).
        pose proof (ts_nth _ _ (s_tbl _ _ _ Hs) ref Hr) as Hn.
        exists (d_apply ix (i_index ref) n v d), (n, v).
        split; [|split; [|split; [reflexivity|split; [now left|exact Hin]]]].
        * intros rest. unfold decode_one. rewrite Hmax. cbn [app hd_byte]. rewrite G1. change (0 <? 0) with false. cbv iota.
          assert (G4' : (N.land b0 48 =? 32) = match ix with Incremental => true | _ => false end)
            by (rewrite G4; unfold by0; destruct ix; reflexivity).
          assert (G5' : (N.land b0 48 =? 48) = match ix with Substitution => true | _ => false end)
            by (rewrite G5; unfold by0; destruct ix; reflexivity).
          assert (G3' : (N.land b0 64 =? 64) = true) by (rewrite G3; unfold by0; destruct ix; reflexivity).
          rewrite G4' at 1. rewrite G5' at 1.
          replace (if ((match ix with Incremental => true | _ => false end) || (match ix with Substitution => true | _ => false end))%bool then 4 else 5)
            with (idx_prefix ix) by (destruct ix; reflexivity).
          unfold decode_name. rewrite G2.
          replace (64 <=? by0) with true by (unfold by0; destruct ix; reflexivity).
          rewrite <- !app_assoc, R. cbn [bind]. rewrite (at_index_ok _ _ _ Hn). cbn [bind fst].
          rewrite (zero_int _ b0 _ _ Hbl W2). cbn [bind]. rewrite Hrn.
          apply (finish_ok ix d b0 n (i_index ref) k v (skipn k v) rest s3 G4' G5' E3).
          -- rewrite G3'. eexists. split; [exact Hn|]. cbn [snd]. symmetry. now apply prefix_join.
          -- intros _. eauto.
        * apply hsim_touch; [auto|exact Hap].
  Qed.
End Step.
