(** * Property C128: delta_bohe's operations, read back by its own codec from the octets. *)
From Coq Require Import String List NArith ZArith Bool Arith Lia ZifyN ZifyNat Permutation Sorted.
From Verif Require Import PyBase PyStr NBits Bits BB_Model BB_Spec BB_Proofs BB_Read D2Huff_Model D2Huff_Proofs D2Wire_Proofs D2Wire_Frame
  D1Huff_Model D1Huff_Proofs Prop_D1Huff D1Wire_Model D1Wire_Proofs D1Wire_Frame Prop_D1Wire Bohe_Model DB_Model DB_Wire DB_Text Prop_DB DBR_Model PyStr.
Import ListNotations.
Open Scope N_scope.
Open Scope py_scope.

(** ** Specification *)

(** The operations of instructions: indices toggled one by one or as ranges, each as often
    as asked for, the clones, the stores. *)
Definition operations (toggled : list Z) (clones : list (Z * str)) (stores : list (str * str)) (ops : list op1) : Prop := exists singles ranges,
  Permutation (singles ++ flat_map (fun '(s, e) => between s e) ranges) toggled /\
  ops = map Toggl singles ++ map (fun '(s, e) => Trang e s) ranges ++ map (fun '(n, v) => Clone n v) clones ++ map (fun '(k, v) => Kvsto k v) stores.

(** ** Proofs *)

Lemma text_instr i : instrs_ok i -> instr_ok (as_instr i).
Proof.
  intros [H1 H2 H3]. unfold as_instr. constructor; cbn [i_toggl i_clone i_kvsto i_eref]; [exact H1| | |constructor]; apply Forall_map; assumption.
Qed.
Lemma text_few i : few i -> at_most_256 (as_instr i).
Proof.
  intros (F1 & F2 & F3). destruct (few_toggles _ F1) as [Ha Hb]. unfold at_most_256, wire_kinds, as_instr. cbn [i_toggl i_clone i_kvsto i_eref]. destruct (toggle_ranges (n_toggl i)) as [ot otr]. cbn [fst snd] in *.
  repeat apply Forall_cons; try apply Forall_nil; cbn [snd]; rewrite ?map_length; try assumption. cbn. lia.
Qed.

Section Reading.
  Variables (h : huffman) (ws : list (list bool)).
  Hypothesis (G : good h ws) (He : 256 < lenN ws).

  (** A frame's blocks, with the position after them. *)
  Lemma read_blocks cs : Forall (fun c => chunk_ok c /\ (1 <= length (snd c) <= 256)%nat) cs -> forall fuel b A R acc,
    (length A mod 8 = 0)%nat -> rd b A (bits_of_bytes (chunks_oct ws cs) ++ R) -> (length cs < fuel)%nat ->
    exists b', read_frame1 fuel h (8 * Z.of_nat (length (chunks_oct ws cs))) b acc = Ok (acc ++ flat_map snd cs, b') /\ rd b' (A ++ bits_of_bytes (chunks_oct ws cs)) R.
  Proof.
    induction 1 as [|[k ops] r [Hc Hl] HF IH]; intros fuel b A R acc Ha Hb Hf; (destruct fuel as [|f]; [cbn in Hf; lia|]); cbn [read_frame1 chunks_oct flat_map] in *.
    - exists b. split; [now rewrite app_nil_r|now rewrite app_nil_r].
    - fold (chunks_oct ws r) in *. cbn [fst snd] in *. rewrite bob_app, <- app_assoc in Hb. rewrite app_length.
      assert (L4 : (4 <= length (chunk_oct ws (k, ops)))%nat) by (apply (chunk_oct_len h ws G He); cbn [snd]; intros ->; cbn in Hl; lia).
      destruct (Z.ltb_spec 16 (8 * Z.of_nat (length (chunk_oct ws (k, ops)) + length (chunks_oct ws r)))) as [_|L]; [|lia].
      destruct (read_chunk1_ok h ws G He k ops b A _ Hc Hl Ha Hb) as (b1 & E1 & B1).
      rewrite E1. cbn [bind]. rewrite (rd_remaining ws He _ _ _ Hb), (rd_remaining ws He _ _ _ B1), app_length, bits_of_bytes_length.
      replace (8 * _ - _)%Z with (8 * Z.of_nat (length (chunks_oct ws r)))%Z by (rewrite !app_length; lia).
      destruct (IH f b1 _ R (acc ++ ops) (mod8_app ws He A _ Ha) B1 ltac:(cbn in Hf; lia)) as (b2 & E2 & B2).
      exists b2. rewrite E2. split; [now rewrite <- app_assoc|]. now rewrite bob_app, app_assoc.
  Qed.

  Definition frame (flags : N) (i : instrs) : list N := head (lenN (payload ws i)) flags 1234 8 ++ payload ws i.
  Definition listed (i : instrs) : list op1 := flat_map snd (wire_kinds (as_instr i)).
  Definition fits (i : instrs) : Prop := instrs_ok i /\ texts i /\ few i /\ lenN (payload ws i) <= 65528.

  Lemma real_frame i blob : fits i \/ (instrs_ok i /\ texts i /\ few i /\ lenN blob <= 65536) -> real_ops h i = Ok blob -> fits i /\ blob = frame 1 i.
  Proof.
    intros Hf E. assert (Hi : instrs_ok i) by (destruct Hf as [H|H]; apply H). destruct (real_ops_ok h ws G He i Hi) as (x & Hx & E' & Hz).
    assert (Hb : blob = head (N.min (lenN (payload ws i)) 65528) 1 1234 8 ++ payload ws i ++ x) by congruence.
    assert (Hp : lenN (payload ws i) <= 65528).
    { destruct Hf as [H|(_ & _ & _ & H)]; [apply H|]. rewrite Hb in H. unfold lenN in *. rewrite !app_length, head_length in H. lia. }
    split; [destruct Hf as [H|(A & B & C & _)]; [exact H|exact (conj A (conj B (conj C Hp)))]|]. unfold frame. rewrite (Hz Hp), app_nil_r, N.min_l in Hb by exact Hp. exact Hb.
  Qed.
  Lemma frame_bytes flags i : flags < 256 -> fits i -> is_bytes (frame flags i).
  Proof.
    intros Hl (Hi & Ht & _ & Hp). unfold frame, is_bytes. rewrite Forall_app. rewrite (payload_text ws i Ht) in *. split; [|exact (payload1_bytes h ws G He _ (text_instr i Hi))].
    apply head_bytes; try reflexivity; [lia|exact Hl].
  Qed.

  (** One frame; what comes next depends on its flag. *)
  Lemma read_one flags i f b A R acc : flags < 256 -> fits i -> (length A mod 8 = 0)%nat -> rd b A (bits_of_bytes (frame flags i) ++ R) ->
    exists b', rd b' (A ++ bits_of_bytes (frame flags i)) R /\ read_framesb (S f) h b acc = if flags =? 0 then read_framesb f h b' (acc ++ listed i) else Ok (acc ++ listed i).
  Proof.
    intros Hfl (Hi & Ht & Hf & Hp) Ha B. unfold frame in *. rewrite (payload_text ws i Ht) in *. set (w := as_instr i) in *.
    set (len := lenN (payload1 ws w)) in *. unfold head in *. rewrite !bob_app, !bob_one, <- !app_assoc in *. cbn [read_framesb].
    destruct (rd_get16 b A _ len ltac:(lia) B) as (b1 & E1 & B1). rewrite E1. cbn [bind].
    destruct (rd_get8 b1 _ _ flags Hfl B1) as (b2 & E2 & B2). rewrite E2. cbn [bind].
    destruct (rd_get32 b2 _ _ _ sid1_ok B2) as (b3 & E3 & B3). rewrite E3. cbn [bind].
    destruct (rd_get8 b3 _ _ 8 ltac:(reflexivity) B3) as (b4 & E4 & B4). rewrite E4. cbn [bind].
    assert (Pn : payload1 ws w = chunks_oct ws (nonempty (wire_kinds w))) by (now rewrite chunks_nonempty).
    match type of B4 with rd _ ?A4 _ => assert (Ha4 : (length A4 mod 8 = 0)%nat) end.
    { rewrite !app_length, !bits_of_bytes_length, !bits_of_length. change (length (o16 len)) with 2%nat. change (length (o32 (N.lor 2147483648 1234))) with 4%nat.
      replace (length A + 8 * 2 + 8 + 8 * 4 + 8)%nat with (length A + 8 * 8)%nat by lia. rewrite Nat.mod_add by lia. exact Ha. }
    rewrite Pn in B4.
    destruct (read_blocks (nonempty (wire_kinds w)) (nonempty_ok ws He w (text_instr i Hi) (text_few i Hf)) (S (bb_num b4)) b4 _ R acc Ha4 B4) as (b5 & E5 & B5).
    { rewrite (rd_num _ _ _ B4), !app_length, !bits_of_bytes_length.
      assert (L : forall cs : list chunk, Forall (fun c => snd c <> []) cs -> (length cs <= length (chunks_oct ws cs))%nat).
      { induction 1 as [|c r Hc HF IH]; [cbn; lia|]. cbn [chunks_oct flat_map length]. rewrite app_length. pose proof (chunk_oct_len h ws G He c Hc). unfold chunks_oct in IH. lia. }
      specialize (L (nonempty (wire_kinds w))). rewrite Forall_forall in L.
      assert (length (nonempty (wire_kinds w)) <= length (chunks_oct ws (nonempty (wire_kinds w))))%nat; [|lia].
      apply L. intros c Hc. unfold nonempty in Hc. apply filter_In in Hc. destruct Hc as [_ Hn]. intros C. rewrite C in Hn. discriminate. }
    rewrite <- Pn in E5, B5. replace (Z.of_N len * 8)%Z with (8 * Z.of_nat (length (payload1 ws w)))%Z by (unfold len, lenN; lia).
    rewrite ops_nonempty in E5. exists b5. rewrite E5. cbn [bind]. split; [|reflexivity]. now rewrite <- !app_assoc in B5.
  Qed.

  Lemma read_many i front : fits i -> Forall fits front -> forall f b A acc, (length A mod 8 = 0)%nat -> (length front < f)%nat ->
    rd b A (bits_of_bytes (concat (map (frame 0) front) ++ frame 1 i)) -> read_framesb f h b acc = Ok (acc ++ concat (map listed front) ++ listed i).
  Proof.
    intros Hi. induction 1 as [|j r Hj HF IH]; intros f b A acc Ha Hf B; (destruct f as [|f]; [cbn in Hf; lia|]); cbn [map concat app] in *.
    - rewrite <- (app_nil_r (bits_of_bytes _)) in B. destruct (read_one 1 i f b A [] acc ltac:(reflexivity) Hi Ha B) as (b' & _ & ->). reflexivity.
    - rewrite <- app_assoc, bob_app in B. destruct (read_one 0 j f b A _ acc ltac:(reflexivity) Hj Ha B) as (b' & B' & ->). change (0 =? 0) with true. cbv iota.
      rewrite (IH f b' _ (acc ++ listed j) (mod8_app ws He A _ Ha) ltac:(cbn in Hf; lia) B'). now rewrite <- !app_assoc.
  Qed.

  Lemma from_frames i front : fits i -> Forall fits front ->
    from_real h (concat (map (frame 0) front) ++ frame 1 i) = Ok (concat (map listed front) ++ listed i).
  Proof.
    intros Hi HF. set (blob := concat (map (frame 0) front) ++ frame 1 i).
    assert (Hby : is_bytes blob).
    { unfold blob, is_bytes. rewrite Forall_app. split; [|exact (frame_bytes 1 i ltac:(reflexivity) Hi)]. clear blob. induction HF as [|j r Hj HF IH]; [constructor|]. cbn [map concat]. rewrite Forall_app. split; [exact (frame_bytes 0 j ltac:(reflexivity) Hj)|exact IH]. }
    unfold from_real. destruct (store_octets bb_new [] [] blob (length blob) wr_new Hby) as (b0 & E0 & B0). rewrite E0. cbn [bind app] in *.
    unfold deserializeb, bb_all. destruct (copy_bits b0 _ B0) as (b & Ec & B). rewrite Ec. cbn [bind].
    rewrite (read_many i front Hi HF (S (bb_num b)) b [] []); [reflexivity|reflexivity| |exact B].
    rewrite (rd_num _ _ _ B), bits_of_bytes_length. unfold blob. rewrite app_length. assert (L : (length front <= length (concat (map (frame 0%N) front)))%nat); [|cbn; lia].
    clear. induction front as [|j r IH]; [cbn; lia|]. cbn [map concat length]. unfold frame at 1. rewrite !app_length, head_length. lia.
  Qed.

  (** Output of any length: its first frame holds at most 65528 octets of blocks, and its flag
      says that it is the last. *)
  Lemma from_long i blob : instrs_ok i -> texts i -> few i -> real_ops h i = Ok blob ->
    from_real h blob = Ok (flat_map snd (kept1 ws (8 * Z.of_N (N.min (lenN (payload1 ws (as_instr i))) 65528)) (nonempty (wire_kinds (as_instr i))))).
  Proof.
    intros Hi Ht Hf Eb. destruct (real_ops_ok h ws G He i Hi) as (x & Hx & E & _).
    set (w := as_instr i). assert (Hw : instr_ok w) by (now apply text_instr). pose proof (payload_text ws i Ht) as Ep. fold w in Ep. rewrite Ep in *.
    set (len := N.min (lenN (payload1 ws w)) 65528) in *. assert (Hlen : len < 65536) by lia.
    assert (Hbl : blob = head len 1 1234 8 ++ payload1 ws w ++ x) by congruence. clear E Eb.
    assert (Hby : is_bytes blob).
    { rewrite Hbl. unfold is_bytes. rewrite !Forall_app. split; [|split; [exact (payload1_bytes h ws G He w Hw)|exact Hx]]. apply head_bytes; try reflexivity; assumption. }
    unfold from_real. destruct (store_octets bb_new [] [] blob (length blob) wr_new Hby) as (b0 & E0 & B0). rewrite E0. cbn [bind app] in *.
    unfold deserializeb, bb_all. destruct (copy_bits b0 _ B0) as (b & Ec & B). rewrite Ec. cbn [bind read_framesb].
    rewrite Hbl in B. unfold head in B. rewrite !bob_app, !bob_one, <- !app_assoc in B.
    destruct (rd_get16 b [] _ len Hlen B) as (b1 & E1 & B1). rewrite E1. cbn [bind].
    destruct (rd_get8 b1 _ _ 1 ltac:(reflexivity) B1) as (b2 & E2 & B2). rewrite E2. cbn [bind].
    destruct (rd_get32 b2 _ _ _ sid1_ok B2) as (b3 & E3 & B3). rewrite E3. cbn [bind].
    destruct (rd_get8 b3 _ _ 8 ltac:(reflexivity) B3) as (b4 & E4 & B4). rewrite E4. cbn [bind].
    change (1 =? 0) with false. cbv iota.
    assert (Pn : payload1 ws w = chunks_oct ws (nonempty (wire_kinds w))) by (now rewrite chunks_nonempty).
    match type of B4 with rd _ ?A _ => assert (Ha : (length A mod 8 = 0)%nat) by (rewrite !app_length, !bits_of_bytes_length, !bits_of_length; reflexivity) end.
    rewrite Pn in B4.
    destruct (read_frame1_ok h ws G He (nonempty (wire_kinds w)) (nonempty_ok ws He w Hw (text_few i Hf)) (S (bb_num b4)) (Z.of_N len * 8) b4 _ _ [] Ha B4) as (b' & E).
    - rewrite <- Pn. unfold len, lenN. lia.
    - rewrite (rd_num _ _ _ B4), !app_length, !bits_of_bytes_length.
      assert (L : forall cs : list chunk, Forall (fun c => snd c <> []) cs -> (length cs <= length (chunks_oct ws cs))%nat).
      { induction 1 as [|c r Hc HF IH]; [cbn; lia|]. cbn [chunks_oct flat_map length]. rewrite app_length. pose proof (chunk_oct_len h ws G He c Hc). unfold chunks_oct in IH. lia. }
      specialize (L (nonempty (wire_kinds w))). rewrite Forall_forall in L.
      assert (length (nonempty (wire_kinds w)) <= length (chunks_oct ws (nonempty (wire_kinds w))))%nat; [|lia].
      apply L. intros c Hc. unfold nonempty in Hc. apply filter_In in Hc. destruct Hc as [_ Hn]. intros C. rewrite C in Hn. discriminate.
    - rewrite E. cbn [bind app]. now rewrite (Z.mul_comm (Z.of_N len)).
  Qed.

  Lemma kept_step ds : forall len c cs, (8 * Z.of_nat (length (chunks_oct ws ds)) + 16 < len)%Z ->
    kept1 ws len (ds ++ c :: cs) = ds ++ c :: kept1 ws (len - 8 * Z.of_nat (length (chunks_oct ws (ds ++ [c])))) cs.
  Proof.
    induction ds as [|d r IH]; intros len c cs H; cbn [app kept1 chunks_oct flat_map] in *.
    - cbn [length] in H. destruct (Z.ltb_spec 16 len); [|lia]. now rewrite app_nil_r.
    - fold (chunks_oct ws r) in *. fold (chunks_oct ws (r ++ [c])). rewrite app_length in *. destruct (Z.ltb_spec 16 len); [|lia]. f_equal. rewrite IH by lia. do 2 f_equal. f_equal. lia.
  Qed.
  Lemma kept_stop len cs : (len <= 16)%Z -> kept1 ws len cs = [].
  Proof. intros H. destruct cs; [reflexivity|]. cbn [kept1]. destruct (Z.ltb_spec 16 len); [lia|reflexivity]. Qed.

  (** The toggles take little room. *)
  Definition toggles (i : instrs) : list chunk := let (ot, otr) := toggle_ranges (n_toggl i) in [(KToggl, map Toggl ot); (KTrang, map (fun '(s, e) => Trang e s) otr)].
  Definition cloning (i : instrs) : chunk := (KClone, map (fun '(k, v) => Clone k v) (map fst (n_clone i))).
  Definition storing (i : instrs) : chunk := (KKvsto, map (fun '(k, v) => Kvsto k v) (map fst (n_kvsto i))).
  Lemma kinds_split i : nonempty (wire_kinds (as_instr i)) = nonempty (toggles i) ++ nonempty [cloning i] ++ nonempty [storing i].
  Proof.
    unfold wire_kinds, toggles, as_instr, cloning, storing. cbn [i_toggl i_clone i_kvsto i_eref]. destruct (toggle_ranges (n_toggl i)) as [ot otr]. unfold nonempty. rewrite <- !filter_app. cbn [app map].
    match goal with |- filter ?f [?a; ?b; ?c; ?d; ?e] = _ => change [a; b; c; d; e] with ([a; b; c; d] ++ [e]); rewrite (filter_app f); change (filter f [e]) with (@nil chunk) end. apply app_nil_r.
  Qed.
  Lemma chunk_size c n : Forall (fun o => length (op_oct ws o) = n) (snd c) -> (length (chunk_oct ws c) <= 2 + n * length (snd c))%nat.
  Proof.
    intros H. unfold chunk_oct. destruct c as [k ops]. cbn [fst snd] in *. assert (E : length (ops_oct ws ops) = (n * length ops)%nat).
    { induction H as [|o r Ho HF IH]; [cbn; lia|]. cbn [ops_oct flat_map length]. rewrite app_length, Ho. unfold ops_oct in IH. rewrite IH. lia. }
    destruct ops as [|o r]; [cbn; lia|]. cbn [app length] in *. rewrite E. lia.
  Qed.
  Lemma toggles_small i : (length (n_toggl i) <= 256)%nat -> (length (chunks_oct ws (nonempty (toggles i))) <= 1540)%nat.
  Proof.
    intros F1. destruct (few_toggles _ F1) as [Ha Hb]. unfold toggles. destruct (toggle_ranges (n_toggl i)) as [ot otr]. cbn [fst snd] in *.
    rewrite chunks_nonempty. cbn [chunks_oct flat_map]. rewrite app_nil_r, app_length.
    pose proof (chunk_size (KToggl, map Toggl ot) 2) as A. pose proof (chunk_size (KTrang, map (fun '(s, e) => Trang e s) otr) 4) as B. cbn [snd] in A, B. rewrite map_length in A, B.
    assert ((length (chunk_oct ws (KToggl, map Toggl ot)) <= 2 + 2 * length ot)%nat) by (apply A, Forall_map, Forall_forall; reflexivity).
    assert ((length (chunk_oct ws (KTrang, map (fun '(s, e) => Trang e s) otr)) <= 2 + 4 * length otr)%nat) by (apply B, Forall_map, Forall_forall; intros [s e] _; reflexivity).
    lia.
  Qed.

  Lemma kept_kinds i : (length (n_toggl i) <= 256)%nat ->
    let all := nonempty (wire_kinds (as_instr i)) in let front := nonempty (toggles i) ++ nonempty [cloning i] in
    kept1 ws (8 * Z.of_N (N.min (lenN (payload1 ws (as_instr i))) 65528)) all = if lenN (chunks_oct ws front) <? 65526 then all else front.
  Proof.
    intros F1 all front. assert (Pn : payload1 ws (as_instr i) = chunks_oct ws all) by (unfold all; now rewrite chunks_nonempty). rewrite Pn. unfold all in *. rewrite kinds_split in *. clear Pn all.
    pose proof (toggles_small i F1) as S1. unfold front. clear front. set (ds := nonempty (toggles i)) in *. generalize (cloning i) (storing i). intros c k.
    assert (K : forall c', (exists e, nonempty [c'] = [e] /\ (4 <= length (chunk_oct ws e))%nat) \/ nonempty [c'] = []).
    { intros c'. destruct c' as [q [|o r]]; [now right|left]. eexists. split; [reflexivity|]. apply (chunk_oct_len h ws G He). discriminate. }
    assert (C : forall l l', chunks_oct ws (l ++ l') = chunks_oct ws l ++ chunks_oct ws l') by (intros; unfold chunks_oct; apply flat_map_app).
    assert (C1 : forall e, chunks_oct ws [e] = chunk_oct ws e) by (intros; unfold chunks_oct; cbn [flat_map]; apply app_nil_r).
    destruct (K k) as [(e & -> & Le)| ->].
    - rewrite (app_assoc ds). set (fs := ds ++ nonempty [c]) in *. destruct (N.ltb_spec (lenN (chunks_oct ws fs)) 65526) as [L|L].
      + rewrite (kept_step fs _ e []); [reflexivity|]. rewrite C, C1. unfold lenN in *. rewrite app_length. lia.
      + destruct (K c) as [(g & Eg & Lg)|Eg]; unfold fs in *; rewrite Eg in *; [|exfalso; rewrite app_nil_r in L; unfold lenN in L; lia].
        rewrite <- app_assoc. cbn [app]. rewrite (kept_step ds _ g [e]).
        * rewrite kept_stop; [reflexivity|]. change (ds ++ g :: [e]) with (ds ++ [g] ++ [e]). rewrite (app_assoc ds), (C (ds ++ [g])), C1. unfold lenN in *. rewrite app_length. lia.
        * change (ds ++ g :: [e]) with (ds ++ [g] ++ [e]). rewrite (app_assoc ds), (C (ds ++ [g])), C1. unfold lenN in *. rewrite app_length. lia.
    - rewrite app_nil_r. assert (X : forall l : list chunk, (if lenN (chunks_oct ws l) <? 65526 then l else l) = l) by (intros l; now destruct (_ <? _)). rewrite X.
      destruct (K c) as [(g & -> & Lg)| ->].
      + rewrite (kept_step ds _ g []); [reflexivity|]. rewrite C, C1. unfold lenN. rewrite app_length. lia.
      + rewrite app_nil_r. rewrite N.min_l by (unfold lenN; lia). replace (Z.of_N (lenN (chunks_oct ws ds))) with (Z.of_nat (length (chunks_oct ws ds))) by (unfold lenN; lia).
        apply (kept1_all h ws G He). apply Forall_forall. intros x Hx. unfold ds, nonempty in Hx. apply filter_In in Hx. destruct Hx as [_ Hn]. intros C2. rewrite C2 in Hn. discriminate.
  Qed.
End Reading.

(** ** C128 *)

(** Texts only, at most 256 operations of a kind, one frame. *)
Definition one_frame (h : huffman) (i : instrs) (blob : str) : Prop := instrs_ok i /\
  (forall n v b, In (n, v, b) (n_clone i) -> b = true) /\ (forall k v b, In (k, v, b) (n_kvsto i) -> b = true) /\
  (length (n_toggl i) <= 256)%nat /\ (length (n_clone i) <= 256)%nat /\ (length (n_kvsto i) <= 256)%nat /\
  real_ops h i = Ok blob /\ lenN blob <= 65536.
(** The third octet of a frame says that it is the last; this one says that another follows. *)
Definition to_be_continued (blob : str) : str := firstn 2 blob ++ [0] ++ skipn 3 blob.

Lemma one_frame_is h ws (G : good h ws) (He : 256 < lenN ws) i blob : one_frame h i blob -> fits ws i /\ blob = frame ws 1 i.
Proof.
  intros (Hi & T1 & T2 & F1 & F2 & F3 & E & L). apply (real_frame h ws G He i blob); [|exact E]. right. split; [exact Hi|]. split; [|split; [exact (conj F1 (conj F2 F3))|exact L]].
  split; apply Forall_forall; intros [[n v] b] Hx; cbn [snd]; eauto.
Qed.
Lemma continued ws i : to_be_continued (frame ws 1 i) = frame ws 0 i.
Proof. reflexivity. Qed.
Lemma listed_says i : operations (n_toggl i) (map fst (n_clone i)) (map fst (n_kvsto i)) (listed i).
Proof.
  unfold listed, wire_kinds, as_instr. cbn [i_toggl i_clone i_kvsto i_eref]. destruct (toggle_ranges (n_toggl i)) as [ot otr] eqn:Et. exists ot, otr. split; [exact (C42_ranges _ _ _ Et)|].
  cbn [flat_map snd map]. now rewrite !app_nil_r.
Qed.

Theorem C128_read : forall is_request h i blob, db_coder is_request = Ok h -> one_frame h i blob ->
  exists ops, from_real h blob = Ok ops /\ operations (n_toggl i) (map fst (n_clone i)) (map fst (n_kvsto i)) ops.
Proof.
  intros is_request h i blob Eh H. destruct (coder_words is_request h Eh) as (ws & G & He). destruct (one_frame_is h ws G He i blob H) as [Hf ->].
  exists (listed i). split; [exact (from_frames h ws G He i [] Hf (Forall_nil _))|apply listed_says].
Qed.
Print Assumptions C128_read.

(** Frames in a row, each but the last to be continued, are read as one list. *)
Theorem C128_frames : forall is_request h is blobs i blob, db_coder is_request = Ok h -> Forall2 (one_frame h) is blobs -> one_frame h i blob ->
  exists opss ops, from_real h (concat (map to_be_continued blobs) ++ blob) = Ok (concat opss ++ ops) /\
    Forall2 (fun b o => from_real h b = Ok o) blobs opss /\ from_real h blob = Ok ops.
Proof.
  intros is_request h is blobs i blob Eh HF H. destruct (coder_words is_request h Eh) as (ws & G & He). destruct (one_frame_is h ws G He i blob H) as [Hf ->].
  assert (K : Forall (fits ws) is /\ blobs = map (frame ws 1) is).
  { clear - HF G He. induction HF as [|j b js bs Hj HF [IH1 IH2]]; [now split|]. destruct (one_frame_is h ws G He j b Hj) as [Hf ->]. split; [now constructor|]. cbn [map]. now rewrite IH2. }
  destruct K as [K ->]. exists (map listed is), (listed i). split.
  - rewrite map_map. change (map (fun x => to_be_continued (frame ws 1 x)) is) with (map (frame ws 0) is). exact (from_frames h ws G He i is Hf K).
  - split; [|exact (from_frames h ws G He i [] Hf (Forall_nil _))]. clear - K G He. induction K as [|j r Hj K IH]; constructor; [exact (from_frames h ws G He j [] Hj (Forall_nil _))|exact IH].
Qed.
Print Assumptions C128_frames.

(** Outputs of any length: when what precedes the stores, sent alone, takes 65534 octets or
    more, the stores are lost, without an error; otherwise everything is read. *)
Definition without_stores (i : instrs) : instrs := mk_instrs (n_toggl i) (n_clone i) [].
Theorem C128_long : forall is_request h i blob short, db_coder is_request = Ok h -> instrs_ok i ->
  (forall n v b, In (n, v, b) (n_clone i) -> b = true) -> (forall k v b, In (k, v, b) (n_kvsto i) -> b = true) ->
  (length (n_toggl i) <= 256)%nat -> (length (n_clone i) <= 256)%nat -> (length (n_kvsto i) <= 256)%nat ->
  real_ops h i = Ok blob -> real_ops h (without_stores i) = Ok short ->
  exists ops, from_real h blob = Ok ops /\ operations (n_toggl i) (map fst (n_clone i)) (if lenN short <? 65534 then map fst (n_kvsto i) else []) ops.
Proof.
  intros is_request h i blob short Eh Hi T1 T2 F1 F2 F3 E Es. destruct (coder_words is_request h Eh) as (ws & G & He).
  assert (Ht : texts i). { split; apply Forall_forall; intros [[n v] b] Hx; cbn [snd]; eauto. }
  rewrite (from_long h ws G He i blob Hi Ht (conj F1 (conj F2 F3)) E), (kept_kinds h ws G He i F1).
  assert (Hj : instrs_ok (without_stores i)) by (destruct Hi as [H1 H2 H3]; constructor; [exact H1|exact H2|constructor]).
  destruct (real_ops_ok h ws G He (without_stores i) Hj) as (x & _ & Ex & Hz).
  assert (Hs : short = head (N.min (lenN (payload ws (without_stores i))) 65528) 1 1234 8 ++ payload ws (without_stores i) ++ x) by congruence.
  assert (Htj : texts (without_stores i)) by (split; [apply Ht|constructor]).
  assert (Ep : payload ws (without_stores i) = chunks_oct ws (nonempty (toggles i) ++ nonempty [cloning i])).
  { rewrite (payload_text ws _ Htj). unfold payload1. rewrite <- chunks_nonempty, kinds_split. cbn [storing without_stores n_kvsto map nonempty filter snd]. now rewrite app_nil_r. }
  rewrite Ep in *. clear Ep Ex E Es.
  assert (Q : (lenN (chunks_oct ws (nonempty (toggles i) ++ nonempty [cloning i])) <? 65526) = (lenN short <? 65534)).
  { set (P := chunks_oct _ _) in *. apply (f_equal lenN) in Hs. unfold lenN in Hs at 1 2. rewrite !app_length, head_length in Hs. fold (lenN short) in *.
    destruct (N.ltb_spec (lenN P) 65526); destruct (N.ltb_spec (lenN short) 65534); try reflexivity; exfalso; unfold lenN in *; [rewrite (Hz ltac:(lia)) in Hs; cbn [length] in Hs; lia|lia]. }
  rewrite Q. eexists. split; [reflexivity|]. destruct (lenN short <? 65534).
  - rewrite ops_nonempty. apply listed_says.
  - rewrite flat_map_app, !ops_nonempty. pose proof (listed_says (without_stores i)) as X. cbn [without_stores n_toggl n_clone n_kvsto map] in X.
    replace (flat_map snd (toggles i) ++ flat_map snd [cloning i]) with (listed (without_stores i)); [exact X|].
    unfold listed, toggles, cloning, wire_kinds, as_instr. cbn [i_toggl i_clone i_kvsto i_eref without_stores n_toggl n_clone n_kvsto]. destruct (toggle_ranges (n_toggl i)) as [ot otr]. cbn [flat_map snd map]. now rewrite !app_nil_r, <- !app_assoc.
Qed.
Print Assumptions C128_long.

(** *** A store that is lost: after a clone of 524288 characters or more. *)
Definition long_clone (t : str) : instrs := mk_instrs [] [(4%Z, t, true)] [(lit "x-own", lit "7", true)].
Lemma long_clone_ok t : is_bytes t -> instrs_ok (long_clone t).
Proof.
  intros Ht. constructor; cbn [long_clone n_toggl n_clone n_kvsto]; [constructor| |].
  - constructor; [|constructor]. cbn [fst snd]. split; [unfold idx_ok; lia|exact Ht].
  - constructor; [|constructor]. cbn [fst snd]. split; repeat constructor.
Qed.
Lemma long_text (n : N) : exists t, is_bytes t /\ n <= lenN t.
Proof. exists (repeat 97%N (N.to_nat n)). split; [apply Forall_forall; intros c Hc; apply repeat_spec in Hc; subst c; reflexivity|]. unfold lenN. rewrite repeat_length. lia. Qed.
Theorem C128_long_refuted : (exists t, is_bytes t /\ 524288 <= lenN t) /\
  forall is_request h t, db_coder is_request = Ok h -> is_bytes t -> 524288 <= lenN t ->
  exists blob ops, real_ops h (long_clone t) = Ok blob /\ from_real h blob = Ok ops /\ forall k v, ~ In (Kvsto k v) ops.
Proof.
  split; [apply long_text|]. intros is_request h t Eh Hby Hlong. destruct (coder_words is_request h Eh) as (ws & G & He).
  destruct (real_ops_ok h ws G He (long_clone t) (long_clone_ok t Hby)) as (x & _ & E & _).
  assert (Hj : instrs_ok (without_stores (long_clone t))) by (destruct (long_clone_ok t Hby) as [H1 H2 H3]; constructor; [exact H1|exact H2|constructor]).
  destruct (real_ops_ok h ws G He (without_stores (long_clone t)) Hj) as (y & _ & Ey & _).
  assert (X : exists ops, from_real h (head (N.min (lenN (payload ws (long_clone t))) 65528) 1 1234 8 ++ payload ws (long_clone t) ++ x) = Ok ops /\
    operations (n_toggl (long_clone t)) (map fst (n_clone (long_clone t))) (if lenN (head (N.min (lenN (payload ws (without_stores (long_clone t)))) 65528) 1 1234 8 ++ payload ws (without_stores (long_clone t)) ++ y) <? 65534 then map fst (n_kvsto (long_clone t)) else []) ops).
  { eapply (C128_long is_request h (long_clone t)); [exact Eh|exact (long_clone_ok t Hby)| | | | | |exact E|exact Ey].
    - intros n v b [H|[]]. congruence.
    - intros k v b [H|[]]. congruence.
    - cbn [long_clone n_toggl length]. lia.
    - cbn [long_clone n_clone length]. lia.
    - cbn [long_clone n_kvsto length]. lia. }
  destruct X as (ops & Er & Ho).
  do 2 eexists. split; [exact E|]. split; [exact Er|]. intros k v Hin.
    assert (Ht : texts (without_stores (long_clone t))) by (split; [constructor; [reflexivity|constructor]|constructor]).
    assert (L : 65534 <= lenN (head (N.min (lenN (payload ws (without_stores (long_clone t)))) 65528) 1 1234 8 ++ payload ws (without_stores (long_clone t)) ++ y)).
    { unfold lenN. rewrite !app_length, head_length, (payload_text ws _ Ht). unfold payload1, wire_kinds, as_instr. cbn [without_stores long_clone n_toggl n_clone n_kvsto i_toggl i_clone i_kvsto i_eref map fst].
      assert (B : (length (bits_of_bytes (soct ws t)) >= length t)%nat).
      { rewrite soct_bits. unfold sbits, raw_bits. rewrite !app_length. pose proof (bits_for_len ws t (g_ne _ _ G)) as X.
        assert (Y : Forall (fun c => c < lenN ws) t) by (eapply Forall_impl; [|exact Hby]; cbn beta; intros c Hc; lia). specialize (X Y). lia. }
      rewrite bits_of_bytes_length in B. unfold lenN in Hlong.
      change (toggle_ranges []) with (@nil Z, @nil (Z * Z)). cbv iota. cbn [map chunks_oct flat_map chunk_oct snd fst ops_oct op_oct app]. rewrite !app_nil_r. cbn [length]. rewrite app_length. lia. }
    destruct (N.ltb_spec (lenN (head (N.min (lenN (payload ws (without_stores (long_clone t)))) 65528) 1 1234 8 ++ payload ws (without_stores (long_clone t)) ++ y)) 65534) as [C|_]; [lia|].
    destruct Ho as (sg & rs & _ & Eo). rewrite Eo in Hin. cbn [map] in Hin. rewrite app_nil_r, !in_app_iff, !in_map_iff in Hin.
    destruct Hin as [(z & C & _)|[([a b] & C & _)|([a b] & C & _)]]; discriminate.
Qed.
Print Assumptions C128_long_refuted.

(** *** Some instructions *)
Definition sample : instrs := mk_instrs [7; 5; 6; 20; 3]%Z [(4%Z, lit "/index.html", true)] [(lit "x-own", lit "7", true); (lit "x-no", [], true)].
Definition there_and_back (is_request : bool) (i : instrs) : res (list op1) :=
  let* h := db_coder is_request in let* blob := real_ops h i in from_real h blob.
Example C128_case : instrs_ok sample /\ operations (n_toggl sample) (map fst (n_clone sample)) (map fst (n_kvsto sample))
    [Toggl 3; Toggl 20; Trang 7 5; Clone 4 (lit "/index.html"); Kvsto (lit "x-own") (lit "7"); Kvsto (lit "x-no") []] /\
  there_and_back true sample = Ok [Toggl 3; Toggl 20; Trang 7 5; Clone 4 (lit "/index.html"); Kvsto (lit "x-own") (lit "7"); Kvsto (lit "x-no") []].
Proof.
  split; [|split; [|vm_compute; reflexivity]].
  - constructor; cbn [sample n_toggl n_clone n_kvsto]; repeat (apply Forall_cons || apply Forall_nil); cbn [fst snd]; try (split; [|]); try (unfold idx_ok; lia); try (repeat constructor).
  - exists [3; 20]%Z, [(5, 7)%Z]. split; [|reflexivity]. change (Permutation [3; 20; 5; 6; 7]%Z [7; 5; 6; 20; 3]%Z). apply NoDup_Permutation; [repeat (constructor; [cbn; lia|]); constructor|repeat (constructor; [cbn; lia|]); constructor|]. intros x. cbn [In]. tauto.
Qed.

(** The sample in two frames. *)
Definition sample_ops : list op1 := [Toggl 3; Toggl 20; Trang 7 5; Clone 4 (lit "/index.html"); Kvsto (lit "x-own") (lit "7"); Kvsto (lit "x-no") []].
Definition sample_blob : res (str * list op1) :=
  let* h := db_coder true in let* blob := real_ops h sample in let* ops := from_real h (to_be_continued blob ++ blob) in Ok (blob, ops).
Lemma sample_twice : match sample_blob with Ok (blob, ops) => ops = sample_ops ++ sample_ops /\ lenN blob <= 65536 | Err _ => False end.
Proof. vm_compute. split; [reflexivity|discriminate]. Qed.
Example C128_frames_case : exists h blob, db_coder true = Ok h /\ one_frame h sample blob /\ from_real h (to_be_continued blob ++ blob) = Ok (sample_ops ++ sample_ops).
Proof.
  pose proof sample_twice as X. unfold sample_blob in X. destruct (db_coder true) as [h|]; [|contradiction]. cbn [bind] in X. destruct (real_ops h sample) as [blob|] eqn:E; [|contradiction]. cbn [bind] in X.
  destruct (from_real h _) as [ops|] eqn:Er; [|contradiction]. cbn [bind] in X. destruct X as [-> L]. exists h, blob. split; [reflexivity|]. split; [|exact Er].
  split; [exact (proj1 C128_case)|]. split; [intros n v b [H|[]]; congruence|]. split; [intros k v b [H|[H|[]]]; congruence|]. do 3 (split; [cbn; lia|]). split; [exact E|exact L].
Qed.

(** *** A binary value *)
(** What a new processor's codec writes for a response with this Content-Length alone, read back. *)
Definition length_back (L : library) (v : str) : res (list op1) :=
  let* h := db_coder false in let* s := db_new default_dict in
  match snd (run L (fun l => l) h s [[(lit "content-length", v)]]) with
  | [Ok blob] => from_real h blob
  | _ => Err Diverge
  end.
Definition key_of (k : str) : option Z := match db_new default_dict with Ok (Some c) => key_index (b_keys (c_table c)) k | _ => None end.
(** 136 arrives as a clone with the empty text; reading 5 raises. *)
Theorem C128_binary_refuted : forall L, exists n, key_of (lit "content-length") = Some n /\ bohe_encode L (lit "content-length") (lit "136") = Ok [136; 1] /\ length_back L (lit "136") = Ok [Clone n []] /\ length_back L (lit "5") = Err StandardError.
Proof.
  intros L. eexists. split; [vm_compute; reflexivity|]. split; [vm_compute; reflexivity|]. split; vm_compute; reflexivity.
Qed.
Print Assumptions C128_binary_refuted.
