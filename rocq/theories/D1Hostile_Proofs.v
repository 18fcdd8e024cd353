(** * delta v1's parser on arbitrary octets.

    As in [D2Hostile_Proofs], every reader is described by what it does to a
    bucket of which the bits [A] have been read and the bits [R] are left: it takes
    a beginning of [R] and does the same whatever follows that; or the bucket
    ends too early; or it raises something else, whatever follows. *)
From Coq Require Import List NArith ZArith Bool Arith Lia ZifyN ZifyNat Permutation.
From Verif Require Import PyBase NBits Bits BB_Model BB_Spec BB_Proofs BB_Read D2Huff_Model D2Huff_Proofs D2Wire_Proofs D2Wire_Frame D2Hostile_Proofs.
From Verif Require Import D1Huff_Model D1Huff_Proofs D1Wire_Model D1Wire_Proofs D1Wire_Frame.
Import ListNotations.
Open Scope N_scope.
Open Scope py_scope.

(** ** The tree of a coder is full *)
Lemma dtree_full t : full (dtree_of t) = true.
Proof. induction t as [|? a IHa b IHb]; cbn [dtree_of full]; [reflexivity|]. now rewrite IHa, IHb. Qed.

Lemma d1_full table h : d1_huffman table = Ok h -> full (h_tree h) = true.
Proof.
  intros E. unfold d1_huffman in E. apply bind_ok in E. destruct E as (t & _ & E). apply bind_ok in E. destruct E as (ws & _ & E).
  injection E as <-. apply dtree_full.
Qed.

(** The symbols that decoding gives. *)
Lemma decode_loop_syms h ws : good h ws -> forall fuel b n out s b' n', decode_loop fuel (h_tree h) true None b n out = Ok (s, b', n') ->
  Forall (fun c => c < lenN ws /\ c <> 256) out -> Forall (fun c => c < lenN ws /\ c <> 256) s.
Proof.
  intros G. assert (W : forall t b n s b' n', walk t b n = Ok (s, b', n') -> exists p, leaf_at t p s).
  { induction t as [|x|l IHl r IHr]; intros b n s b' n' E; cbn [walk] in E; [discriminate|injection E as <- _ _; exists []; constructor|].
    apply bind_ok in E. destruct E as ([bit b1] & _ & E). destruct bit; [destruct (IHr _ _ _ _ _ E) as (p & H)|destruct (IHl _ _ _ _ _ E) as (p & H)]; eexists (_ :: p); constructor; exact H. }
  induction fuel as [|f IH]; intros b n out s b' n' E Ho; cbn [decode_loop] in E; [discriminate|].
  apply bind_ok in E. destruct E as ([[c b1] n1] & E1 & E). destruct (W _ _ _ _ _ _ E1) as (p & Hp). destruct (g_only _ _ G _ _ Hp) as (i & Hi & ->).
  cbn [andb] in E. destruct (N.eqb_spec (N.of_nat i) 256) as [_|N256]; [injection E as <- _ _; exact Ho|].
  apply (IH _ _ _ _ _ _ E). apply Forall_app. split; [exact Ho|]. constructor; [|constructor]. split; [|exact N256].
  assert (i < length ws)%nat by (apply nth_error_Some; congruence). unfold lenN. lia.
Qed.

Lemma rd_left b A R : rd b A R -> remaining b = Z.of_nat (length R).
Proof. intros H. unfold remaining. rewrite (rd_num _ _ _ H). pose proof (rd_pos _ _ _ H). lia. Qed.

Section Hostile.
  Variables (h : huffman) (ws : list (list bool)).
  Hypothesis (G : good h ws) (Hfull : full (h_tree h) = true).

  (** What is raised whatever follows: an unknown opcode, and a symbol above 256. *)
  Definition fatal (e : exn) : Prop := e = KeyError \/ (e = OverflowError /\ 257 < lenN ws).

  Definition reads1_at {X} (f : bb -> res (X * bb)) (P : X -> list bool -> Prop) (b : bb) (A R : list bool) : Prop :=
    match f b with
    | Ok (x, b') => exists u R', R = u ++ R' /\ P x u /\ rd b' (A ++ u) R' /\
        forall c T, rd c A (u ++ T) -> exists c', f c = Ok (x, c') /\ rd c' (A ++ u) T
    | Err e => e = StandardError \/ (fatal e /\ forall c T, rd c A (R ++ T) -> f c = Err e)
    end.
  Definition reads1 {X} (f : bb -> res (X * bb)) (P : X -> list bool -> Prop) : Prop :=
    forall b A R, rd b A R -> whole A R -> reads1_at f P b A R.

  Lemma reads1_lift {X} (f : bb -> res (X * bb)) (P : X -> list bool -> Prop) : reads (h_tree h) f P -> reads1 f P.
  Proof.
    intros Hf b A R Hb Hw. specialize (Hf b A R Hb Hw). unfold reads_at, reads1_at in *. destruct (f b) as [[x b']|e]; [exact Hf|].
    destruct Hf as [->|[_ C]]; [now left|congruence].
  Qed.

  Lemma reads1_weaken {X} (f : bb -> res (X * bb)) (P Q : X -> list bool -> Prop) : (forall x u, P x u -> Q x u) -> reads1 f P -> reads1 f Q.
  Proof.
    intros H Hf b A R Hb Hw. specialize (Hf b A R Hb Hw). unfold reads1_at in *. destruct (f b) as [[x b']|e]; [|exact Hf].
    destruct Hf as (u & R' & E & HP & Hb' & Hm). exists u, R'. auto.
  Qed.

  Lemma reads1_bind {X Y} (f : bb -> res (X * bb)) (g : X -> bb -> res (Y * bb)) (P : X -> list bool -> Prop) (Q : Y -> list bool -> Prop) :
    reads1 f P -> (forall x, reads1 (g x) (fun y v => forall u, P x u -> Q y (u ++ v))) ->
    reads1 (fun b => let* (x, b) := f b in g x b) Q.
  Proof.
    intros Hf Hg b A R Hb Hw. specialize (Hf b A R Hb Hw). unfold reads1_at in *. destruct (f b) as [[x b1]|e]; cbn [bind].
    - destruct Hf as (u & R' & -> & HP & Hb1 & Hm). specialize (Hg x b1 (A ++ u) R' Hb1 (whole_step _ _ _ Hw)). unfold reads1_at in Hg.
      destruct (g x b1) as [[y b2]|e].
      + destruct Hg as (v & R2 & -> & HQ & Hb2 & Hm2).
        exists (u ++ v), R2. split; [apply app_assoc|]. split; [now apply HQ|]. rewrite app_assoc. split; [exact Hb2|].
        intros c T Hc. rewrite <- app_assoc in Hc. destruct (Hm c _ Hc) as (c1 & -> & Hc1). cbn [bind]. apply Hm2, Hc1.
      + destruct Hg as [->|[He Hm2]]; [now left|]. right. split; [exact He|]. intros c T Hc. rewrite <- app_assoc in Hc.
        destruct (Hm c _ Hc) as (c1 & -> & Hc1). cbn [bind]. apply (Hm2 c1 T Hc1).
    - destruct Hf as [->|[He Hm]]; [now left|]. right. split; [exact He|]. intros c T Hc. now rewrite (Hm c T Hc).
  Qed.

  Lemma reads1_ret {X} (x : X) (P : X -> list bool -> Prop) : P x [] -> reads1 (fun b => Ok (x, b)) P.
  Proof.
    intros HP b A R Hb _. unfold reads1_at. exists [], R. split; [reflexivity|]. split; [exact HP|]. rewrite app_nil_r. split; [exact Hb|].
    intros c T Hc. eexists. split; [reflexivity|]. exact Hc.
  Qed.

  Lemma reads1_raise {X} e (P : X -> list bool -> Prop) : fatal e -> reads1 (fun _ => Err e) P.
  Proof. intros He b A R _ _. right. now split. Qed.

  (** ** Fields *)

  Lemma reads1_index : reads1 unpack_int16 (fun i u => idx_ok i /\ length u = 16%nat).
  Proof.
    unfold unpack_int16. apply (reads1_bind bb_get16 (fun v b => Ok (Z.of_N v, b)) _ _ (reads1_lift _ _ (reads_get16 _))). intros v. apply reads1_ret.
    intros u (H1 & H2 & _). rewrite app_nil_r. unfold idx_ok. lia.
  Qed.

  Lemma decoded b s b' : decode_from_bb h b true 0 = Ok (s, b') -> Forall (fun c => c < lenN ws /\ c <> 256) s.
  Proof.
    unfold decode_from_bb. cbn [negb andb Nat.eqb]. intros E. apply bind_ok in E. destruct E as ([[o b1] n1] & E1 & E). injection E as -> _.
    apply (decode_loop_syms h ws G _ _ _ _ _ _ _ E1). constructor.
  Qed.

  Lemma reads1_str : reads1 (unpack_str1 h) (fun s u => is_bytes s /\ (length s < length u)%nat).
  Proof.
    intros b A R Hb Hw. pose proof (reads1_lift _ _ (reads_str h (g_node _ _ G)) b A R Hb Hw) as H. unfold reads1_at in *.
    assert (E : forall b, unpack_str1 h b = let* (s, b) := D2Wire_Model.unpack_str h b in if forallb (fun c => c <? 256) s then Ok (s, b) else Err OverflowError).
    { intros b0. unfold unpack_str1, D2Wire_Model.unpack_str. now destruct (decode_from_bb h b0 true 0) as [[s b1]|]. }
    rewrite E. destruct (D2Wire_Model.unpack_str h b) as [[s b1]|e] eqn:Eu; cbn [bind].
    - destruct H as (u & R' & -> & Hl & Hb1 & Hm). destruct (forallb (fun c => c <? 256) s) eqn:Es.
      + exists u, R'. split; [reflexivity|]. split; [split; [|exact Hl]|].
        * rewrite forallb_forall in Es. apply Forall_forall. intros c Hc. specialize (Es c Hc). now apply N.ltb_lt in Es.
        * split; [exact Hb1|]. intros c T Hc. destruct (Hm c T Hc) as (c1 & E1 & Hc1). exists c1. rewrite E, E1. cbn [bind]. rewrite Es. now split.
      + right. split.
        * right. split; [reflexivity|]. unfold D2Wire_Model.unpack_str in Eu. apply bind_ok in Eu. destruct Eu as ([s' b2] & Ed & Eu). injection Eu as <- _.
          pose proof (decoded _ _ _ Ed) as Hs. destruct (N.le_gt_cases (lenN ws) 257) as [L|L]; [|exact L]. exfalso.
          assert (X : forallb (fun c => c <? 256) s' = true); [|congruence].
          apply forallb_forall. intros c Hc. rewrite Forall_forall in Hs. specialize (Hs c Hc). cbn beta in Hs. apply N.ltb_lt. lia.
        * intros c T Hc. rewrite <- app_assoc in Hc. destruct (Hm c _ Hc) as (c1 & E1 & _). rewrite E, E1. cbn [bind]. now rewrite Es.
    - destruct H as [->|[He Hm]]; [now left|]. right. split; [exact He|]. intros c T Hc. rewrite E, (Hm c T Hc). reflexivity.
  Qed.

  (** ** Operations *)

  Definition op_text1 (o : op1) : nat :=
    match o with Toggl _ | Trang _ _ => 0 | Clone _ v => length v | Kvsto k v | Eref k v => length k + length v end%nat.
  Fixpoint cost1 (ops : list op1) : nat := match ops with [] => 0 | o :: r => S (op_text1 o) + cost1 r end%nat.
  Lemma cost1_app a b : cost1 (a ++ b) = (cost1 a + cost1 b)%nat.
  Proof. induction a as [|o r IH]; [reflexivity|]. cbn [app cost1]. rewrite IH. lia. Qed.

  Lemma reads1_op k : reads1 (read_op1 h k) (fun o u => kind_of o = k /\ op1_ok o /\ (S (op_text1 o) <= length u)%nat).
  Proof.
    destruct k; cbn [read_op1].
    - apply (reads1_bind _ (fun i b => Ok (Toggl i, b)) _ _ reads1_index). intros i. apply reads1_ret. intros u [H1 H2].
      rewrite app_nil_r. cbn [kind_of op1_ok op_text1]. repeat split; try apply H1. lia.
    - apply (reads1_bind _ (fun i b => let* (s, b) := unpack_int16 b in Ok (Trang i s, b)) _ _ reads1_index). intros i.
      apply (reads1_bind _ (fun s b => Ok (Trang i s, b)) _ _ reads1_index). intros s. apply reads1_ret. intros v [H3 H4] u [H1 H2].
      rewrite app_nil_r, app_length. cbn [kind_of op1_ok op_text1]. repeat split; try apply H1; try apply H3. lia.
    - apply (reads1_bind _ (fun i b => let* (v, b) := unpack_str1 h b in Ok (Clone i v, b)) _ _ reads1_index). intros i.
      apply (reads1_bind _ (fun v b => Ok (Clone i v, b)) _ _ reads1_str). intros s. apply reads1_ret. intros v [H3 H4] u [H1 H2].
      rewrite app_nil_r, app_length. cbn [kind_of op1_ok op_text1]. repeat split; try apply H1; try apply H3. lia.
    - apply (reads1_bind _ (fun k b => let* (v, b) := unpack_str1 h b in Ok (Kvsto k v, b)) _ _ reads1_str). intros i.
      apply (reads1_bind _ (fun v b => Ok (Kvsto i v, b)) _ _ reads1_str). intros s. apply reads1_ret. intros v [H3 H4] u [H1 H2].
      rewrite app_nil_r, app_length. cbn [kind_of op1_ok op_text1]. repeat split; try apply H1; try apply H3. lia.
    - apply (reads1_bind _ (fun k b => let* (v, b) := unpack_str1 h b in Ok (Eref k v, b)) _ _ reads1_str). intros i.
      apply (reads1_bind _ (fun v b => Ok (Eref i v, b)) _ _ reads1_str). intros s. apply reads1_ret. intros v [H3 H4] u [H1 H2].
      rewrite app_nil_r, app_length. cbn [kind_of op1_ok op_text1]. repeat split; try apply H1; try apply H3. lia.
  Qed.

  Lemma reads1_ops k n : reads1 (read_ops1 n h k) (fun ops u => length ops = n /\ Forall op1_ok ops /\ (cost1 ops <= length u)%nat).
  Proof.
    induction n as [|n IH]; cbn [read_ops1]; [apply reads1_ret; cbn; repeat split; [constructor|lia]|].
    apply (reads1_bind _ (fun o b => let* (ops, b) := read_ops1 n h k b in Ok (o :: ops, b)) _ _ (reads1_op k)). intros o.
    apply (reads1_bind _ (fun ops b => Ok (o :: ops, b)) _ _ IH). intros ops. apply reads1_ret. intros v (H4 & H5 & H6) u (H1 & H2 & H3).
    rewrite app_nil_r, app_length. cbn [length cost1]. repeat split; [lia|constructor; assumption|lia].
  Qed.

  Definition read_of (ops : list op1) (u : list bool) : Prop := (1 <= length ops <= 256)%nat /\ Forall op1_ok ops /\ (16 + cost1 ops <= length u)%nat.
  Lemma reads1_chunk : reads1 (read_chunk1 h) read_of.
  Proof.
    unfold read_chunk1. apply (reads1_bind _ (fun v b => let* (c, b) := bb_get8 b in let* k := val_kind v in read_ops1 (S (N.to_nat c)) h k b) _ _ (reads1_lift _ _ (reads_get8 _))). intros v.
    apply (reads1_bind _ (fun c b => let* k := val_kind v in read_ops1 (S (N.to_nat c)) h k b) _ _ (reads1_lift _ _ (reads_get8 _))). intros c.
    destruct (val_kind v) as [k|e] eqn:Ek; cbn [bind].
    - eapply reads1_weaken; [|apply reads1_ops]. intros ops w (H4 & H5 & H6) u2 (H1 & H2 & _) u1 (H3 & _). unfold read_of. rewrite !app_length. repeat split; try assumption; lia.
    - apply reads1_raise. left. unfold val_kind in Ek. destruct v as [|p]; [congruence|]. do 3 (destruct p as [p|p|]; try congruence).
  Qed.

  (** ** Frames *)

  Lemma read_frame1_reads : forall fuel len b A R acc, rd b A R -> whole A R -> (length R < fuel)%nat ->
    match read_frame1 fuel h len b acc with
    | Ok (ops, b') => exists u R' got, R = u ++ R' /\ ops = acc ++ got /\ Forall op1_ok got /\ (cost1 got <= length u)%nat /\ rd b' (A ++ u) R' /\
        forall fuel2 c T, rd c A (u ++ T) -> (length (u ++ T) < fuel2)%nat ->
          exists c', read_frame1 fuel2 h len c acc = Ok (ops, c') /\ rd c' (A ++ u) T
    | Err e => e = StandardError \/ (fatal e /\ forall fuel2 c T, rd c A (R ++ T) -> (length (R ++ T) < fuel2)%nat -> read_frame1 fuel2 h len c acc = Err e)
    end.
  Proof.
    induction fuel as [|f IH]; intros len b A R acc Hb Hw Hf; [lia|]. cbn [read_frame1]. destruct (16 <? len)%Z eqn:El.
    - pose proof (reads1_chunk b A R Hb Hw) as H1. unfold reads1_at in H1. destruct (read_chunk1 h b) as [[l b1]|e]; cbn [bind].
      + destruct H1 as (u & R' & -> & (Hl & Hok & Hc) & Hb1 & Hm). rewrite app_length in Hf.
        rewrite (rd_left _ _ _ Hb), (rd_left _ _ _ Hb1). rewrite app_length.
        replace (len - (Z.of_nat (length u + length R') - Z.of_nat (length R')))%Z with (len - Z.of_nat (length u))%Z by lia.
        specialize (IH (len - Z.of_nat (length u))%Z b1 _ R' (acc ++ l) Hb1 (whole_step _ _ _ Hw) ltac:(lia)).
        assert (Step : forall fuel2 c T, rd c A (u ++ T) -> exists c1, rd c1 (A ++ u) T /\
          read_frame1 (S fuel2) h len c acc = read_frame1 fuel2 h (len - Z.of_nat (length u)) c1 (acc ++ l)).
        { intros fuel2 c T Hc2. destruct (Hm c T Hc2) as (c1 & E1 & Hc1). exists c1. split; [exact Hc1|]. cbn [read_frame1]. rewrite El, E1. cbn [bind].
          rewrite (rd_left _ _ _ Hc2), (rd_left _ _ _ Hc1), app_length. f_equal. lia. }
        destruct (read_frame1 f h _ b1 (acc ++ l)) as [[ops b2]|e].
        * destruct IH as (u2 & R2 & got & -> & -> & Hok2 & Hc2 & Hb2 & Hm2). exists (u ++ u2), R2, (l ++ got).
          split; [apply app_assoc|]. split; [symmetry; apply app_assoc|]. split; [now apply Forall_app|]. split; [rewrite cost1_app, app_length; lia|].
          rewrite app_assoc. split; [exact Hb2|]. intros fuel2 c T Hc3 Hlt. rewrite <- app_assoc in Hc3, Hlt. rewrite app_length in Hlt. destruct fuel2 as [|f2]; [lia|].
          destruct (Step f2 c _ Hc3) as (c1 & Hc1 & ->). apply Hm2; [exact Hc1|lia].
        * destruct IH as [->|[He Hm2]]; [now left|]. right. split; [exact He|]. intros fuel2 c T Hc3 Hlt. rewrite <- app_assoc in Hc3, Hlt. rewrite app_length in Hlt. destruct fuel2 as [|f2]; [lia|].
          destruct (Step f2 c _ Hc3) as (c1 & Hc1 & ->). apply (Hm2 f2 c1 T); [exact Hc1|lia].
      + destruct H1 as [->|[He Hm]]; [now left|]. right. split; [exact He|]. intros fuel2 c T Hc Hlt. destruct fuel2 as [|f2]; [lia|]. cbn [read_frame1]. rewrite El. now rewrite (Hm c T Hc).
    - exists [], R, []. rewrite !app_nil_r. split; [reflexivity|]. split; [reflexivity|]. split; [apply Forall_nil|]. split; [cbn; lia|]. split; [exact Hb|]. intros fuel2 c T Hc Hlt. exists c. split; [|exact Hc].
      destruct fuel2; cbn [read_frame1]; now rewrite El.
  Qed.

  (** The nine octets before a payload. *)
  Definition read_header1 (b : bb) : res (N * N * N * bb) :=
    let* (len, b) := bb_get16 b in
    let* (flags, b) := bb_get8 b in
    let* (_, b) := bb_get32 b in
    let* (_, b) := bb_get8 b in
    let* (gid, b) := bb_get8 b in
    Ok (len, flags, gid, b).

  Lemma read_frames1_header f b ops : read_frames1 (S f) h b ops =
    let* (x, b) := read_header1 b in
    let '(len, flags, gid) := x in
    let* (ops, b) := read_frame1 (S (bb_num b)) h (Z.of_N len * 8) b ops in
    if flags =? 0 then read_frames1 f h b ops else Ok (gid, ops).
  Proof.
    unfold read_header1. cbn [read_frames1]. destruct (bb_get16 b) as [[len b1]|]; cbn [bind]; [|reflexivity].
    destruct (bb_get8 b1) as [[v b2]|]; cbn [bind]; [|reflexivity]. destruct (bb_get32 b2) as [[fl b3]|]; cbn [bind]; [|reflexivity].
    destruct (bb_get8 b3) as [[sid b4]|]; cbn [bind]; [|reflexivity]. now destruct (bb_get8 b4) as [[g b5]|].
  Qed.

  Lemma reads_header1 : reads (h_tree h) read_header1 (fun '(len, flags, gid) u => length u = 72%nat /\ gid < 256).
  Proof.
    unfold read_header1.
    apply (reads_bind _ bb_get16 (fun len b => let* (flags, b) := bb_get8 b in let* (_, b) := bb_get32 b in let* (_, b) := bb_get8 b in
      let* (gid, b) := bb_get8 b in Ok (len, flags, gid, b)) _ _ (reads_get16 _)). intros len.
    apply (reads_bind _ bb_get8 (fun flags b => let* (_, b) := bb_get32 b in let* (_, b) := bb_get8 b in
      let* (gid, b) := bb_get8 b in Ok (len, flags, gid, b)) _ _ (reads_get8 _)). intros flags.
    apply (reads_bind _ bb_get32 (fun _ b => let* (_, b) := bb_get8 b in let* (gid, b) := bb_get8 b in Ok (len, flags, gid, b)) _ _ (reads_get32 _)). intros sid.
    apply (reads_bind _ bb_get8 (fun _ b => let* (gid, b) := bb_get8 b in Ok (len, flags, gid, b)) _ _ (reads_get8 _)). intros ty.
    apply (reads_map _ bb_get8 (fun gid => (len, flags, gid)) _ _ (reads_get8 _)).
    intros gid u (H1 & H2 & _) u4 (H4 & _) u3 H3 u2 (Hu2 & _) u1 (Hu1 & _). rewrite !app_length. lia.
  Qed.
  Lemma reads1_header : reads1 read_header1 (fun '(len, flags, gid) u => length u = 72%nat /\ gid < 256).
  Proof. apply reads1_lift, reads_header1. Qed.

  Lemma read_frames1_reads : forall fuel b A R acc, rd b A R -> whole A R -> (length R < fuel)%nat ->
    match read_frames1 fuel h b acc with
    | Ok (gid, ops) => exists u R' got, R = u ++ R' /\ ops = acc ++ got /\ gid < 256 /\ Forall op1_ok got /\ (72 + cost1 got <= length u)%nat /\
        forall fuel2 c T, rd c A (u ++ T) -> (length (u ++ T) < fuel2)%nat -> read_frames1 fuel2 h c acc = Ok (gid, ops)
    | Err e => e = StandardError \/ (fatal e /\ forall fuel2 c T, rd c A (R ++ T) -> (length (R ++ T) < fuel2)%nat -> read_frames1 fuel2 h c acc = Err e)
    end.
  Proof.
    induction fuel as [|f IH]; intros b A R acc Hb Hw Hf; [lia|]. rewrite read_frames1_header.
    pose proof (reads1_header b A R Hb Hw) as H1. unfold reads1_at in H1. destruct (read_header1 b) as [[[[len flags] gid] b1]|e] eqn:Eh; cbn [bind].
    2: { destruct H1 as [->|[He Hm]]; [now left|]. right. split; [exact He|]. intros fuel2 c T Hc Hlt. destruct fuel2 as [|f2]; [lia|].
         rewrite read_frames1_header, (Hm c T Hc). reflexivity. }
    destruct H1 as (u & R' & -> & (Hu & Hg) & Hb1 & Hm). rewrite app_length in Hf.
    assert (Hn : (length R' < S (bb_num b1))%nat) by (rewrite (rd_num _ _ _ Hb1); lia).
    pose proof (read_frame1_reads (S (bb_num b1)) (Z.of_N len * 8) b1 _ R' acc Hb1 (whole_step _ _ _ Hw) Hn) as H2.
    destruct (read_frame1 (S (bb_num b1)) h (Z.of_N len * 8) b1 acc) as [[ops b2]|e]; cbn [bind].
    - destruct H2 as (u2 & R2 & got & -> & -> & Hok & Hc & Hb2 & Hm2). rewrite app_length in Hf.
      assert (Step : forall f2 c T, rd c A (u ++ u2 ++ T) -> exists c1, rd c1 ((A ++ u) ++ u2) T /\
        read_frames1 (S f2) h c acc = if flags =? 0 then read_frames1 f2 h c1 (acc ++ got) else Ok (gid, acc ++ got)).
      { intros f2 c T Hc2. destruct (Hm c _ Hc2) as (c1 & E1 & Hc1). rewrite read_frames1_header, E1. cbn [bind].
        destruct (Hm2 (S (bb_num c1)) c1 T Hc1) as (c2 & E2 & Hc3); [rewrite (rd_num _ _ _ Hc1); lia|]. exists c2. rewrite E2. cbn [bind]. now split. }
      destruct (flags =? 0) eqn:Ef.
      + specialize (IH b2 _ R2 (acc ++ got) Hb2 (whole_step _ _ _ (whole_step _ _ _ Hw)) ltac:(lia)).
        destruct (read_frames1 f h b2 (acc ++ got)) as [[gid' ops]|e].
        * destruct IH as (u3 & R3 & got3 & -> & -> & Hg3 & Hok3 & Hc3 & Hm3). exists (u ++ u2 ++ u3), R3, (got ++ got3).
          rewrite !app_assoc. split; [reflexivity|]. split; [reflexivity|]. split; [exact Hg3|]. split; [now apply Forall_app|]. split; [rewrite cost1_app, !app_length; lia|].
          intros fuel2 c T Hc2 Hlt. rewrite <- !app_assoc in Hc2. rewrite !app_length in Hlt. destruct fuel2 as [|f2]; [lia|].
          destruct (Step f2 c _ Hc2) as (c1 & Hc1 & ->). apply (Hm3 f2 c1 T Hc1). rewrite app_length. lia.
        * destruct IH as [->|[He Hm3]]; [now left|]. right. split; [exact He|]. intros fuel2 c T Hc2 Hlt. rewrite <- !app_assoc in Hc2. rewrite !app_length in Hlt. destruct fuel2 as [|f2]; [lia|].
          destruct (Step f2 c _ Hc2) as (c1 & Hc1 & ->). apply (Hm3 f2 c1 T Hc1). rewrite app_length. lia.
      + exists (u ++ u2), R2, got. rewrite !app_assoc. split; [reflexivity|]. split; [reflexivity|]. split; [exact Hg|]. split; [exact Hok|]. split; [rewrite app_length; lia|].
        intros fuel2 c T Hc2 Hlt. rewrite <- !app_assoc in Hc2. destruct fuel2 as [|f2]; [lia|]. destruct (Step f2 c _ Hc2) as (c1 & Hc1 & ->). reflexivity.
    - destruct H2 as [->|[He Hm2]]; [now left|]. right. split; [exact He|]. intros fuel2 c T Hc Hlt. rewrite <- app_assoc in Hc. destruct fuel2 as [|f2]; [lia|].
      rewrite read_frames1_header. destruct (Hm c _ Hc) as (c1 & -> & Hc1). cbn [bind]. rewrite (Hm2 (S (bb_num c1)) c1 T Hc1); [reflexivity|]. rewrite (rd_num _ _ _ Hc1). lia.
  Qed.

  (** ** Messages *)

  Lemma from_wire1_frames blob : is_bytes blob -> exists b, rd b [] (bits_of_bytes blob) /\ from_wire1 h blob = read_frames1 (S (8 * length blob)) h b [].
  Proof.
    intros Hby. unfold from_wire1. destruct (store_octets bb_new [] [] blob (length blob) wr_new Hby) as (b0 & E0 & B0). rewrite E0. cbn [bind app] in *.
    unfold deserialize1, bb_all. destruct (copy_bits b0 _ B0) as (b & Ec & B). rewrite Ec. cbn [bind]. exists b. split; [exact B|].
    rewrite (rd_num _ _ _ B). cbn [length Nat.add]. now rewrite bits_of_bytes_length.
  Qed.

  Lemma from_wire1_total blob : is_bytes blob ->
    match from_wire1 h blob with
    | Ok (gid, ops) => gid < 256 /\ Forall op1_ok ops /\ (72 + cost1 ops <= 8 * length blob)%nat
    | Err e => e = StandardError \/ fatal e
    end.
  Proof.
    intros Hby. destruct (from_wire1_frames blob Hby) as (b & B & ->).
    assert (L : (length (bits_of_bytes blob) < S (8 * length blob))%nat) by (rewrite bits_of_bytes_length; lia).
    pose proof (read_frames1_reads (S (8 * length blob)) b [] _ [] B (whole_bytes blob) L) as H.
    destruct (read_frames1 _ h b []) as [[gid ops]|e]; [|tauto]. destruct H as (u & R' & got & Eu & -> & Hg & Hok & Hc & _). cbn [app].
    apply (f_equal (@length bool)) in Eu. rewrite bits_of_bytes_length, app_length in Eu. repeat split; [exact Hg|exact Hok|lia].
  Qed.

  Lemma from_wire1_short blob : is_bytes blob -> (length blob < 9)%nat -> from_wire1 h blob = Err StandardError.
  Proof.
    intros Hby Hl. destruct (from_wire1_frames blob Hby) as (b & B & ->). rewrite read_frames1_header.
    pose proof (reads_header1 b [] _ B (whole_bytes _)) as H. unfold reads_at in H. destruct (read_header1 b) as [[[[a f] g] b1]|e]; cbn [bind].
    - exfalso. destruct H as (u & R' & Eu & (Hu & _) & _). apply (f_equal (@length bool)) in Eu. rewrite bits_of_bytes_length, app_length in Eu. lia.
    - destruct H as [->|[_ C]]; [reflexivity|congruence].
  Qed.

  (** What follows a message does not matter, unless the message ended too early. *)
  Lemma from_wire1_more p x : is_bytes p -> is_bytes x -> from_wire1 h p <> Err StandardError -> from_wire1 h (p ++ x) = from_wire1 h p.
  Proof.
    intros Hp Hx. destruct (from_wire1_frames p Hp) as (b & B & ->).
    destruct (from_wire1_frames (p ++ x)) as (b2 & B2 & ->); [now apply Forall_app|].
    assert (L : (length (bits_of_bytes p) < S (8 * length p))%nat) by (rewrite bits_of_bytes_length; lia).
    pose proof (read_frames1_reads (S (8 * length p)) b [] _ [] B (whole_bytes p) L) as H. rewrite bob_app in B2.
    destruct (read_frames1 _ h b []) as [[gid ops]|e].
    - intros _. destruct H as (u & R' & got & Eu & -> & _ & _ & _ & Hm). rewrite Eu, <- app_assoc in B2. apply (Hm _ b2 _ B2).
      rewrite app_assoc, <- Eu, !app_length, !bits_of_bytes_length. lia.
    - intros Ne. destruct H as [->|[_ Hm]]; [congruence|]. apply (Hm _ b2 _ B2). rewrite !app_length, !bits_of_bytes_length. lia.
  Qed.
End Hostile.

(** ** A message that was cut *)
Section Cut.
  Variables (h : huffman) (ws : list (list bool)).
  Hypothesis (G : good h ws) (He : 256 < lenN ws) (Hfull : full (h_tree h) = true).

  Lemma header1_ok len gid : len < 65536 -> gid < 256 -> forall b A R, rd b A (bits_of_bytes (hdr1 len 1 1234 gid 8) ++ R) ->
    exists b', read_header1 b = Ok (len, 1, gid, b') /\ rd b' (A ++ bits_of_bytes (hdr1 len 1 1234 gid 8)) R.
  Proof.
    intros Hlen Hg b A R B. unfold hdr1 in *. rewrite !bob_app, !bob_one in *. rewrite <- !app_assoc in B. unfold read_header1.
    destruct (rd_get16 b A _ len Hlen B) as (b1 & E1 & B1). rewrite E1. cbn [bind].
    destruct (rd_get8 b1 _ _ 1 ltac:(reflexivity) B1) as (b2 & E2 & B2). rewrite E2. cbn [bind].
    destruct (rd_get32 b2 _ _ _ sid1_ok B2) as (b3 & E3 & B3). rewrite E3. cbn [bind].
    destruct (rd_get8 b3 _ _ 8 ltac:(reflexivity) B3) as (b4 & E4 & B4). rewrite E4. cbn [bind].
    destruct (rd_get8 b4 _ _ gid Hg B4) as (b5 & E5 & B5). rewrite E5. cbn [bind]. exists b5. split; [reflexivity|].
    now rewrite <- !app_assoc in *.
  Qed.

  (** Reading a payload takes all of it. *)
  Lemma read_frame1_all cs : Forall (fun c => chunk_ok c /\ (1 <= length (snd c) <= 256)%nat) cs -> forall fuel b A R acc,
    (length A mod 8 = 0)%nat -> rd b A (bits_of_bytes (chunks_oct ws cs) ++ R) -> (length cs < fuel)%nat ->
    exists b', read_frame1 fuel h (8 * Z.of_nat (length (chunks_oct ws cs))) b acc = Ok (acc ++ flat_map snd cs, b') /\ rd b' (A ++ bits_of_bytes (chunks_oct ws cs)) R.
  Proof.
    induction 1 as [|[k ops] r [Hc Hl] HF IH]; intros fuel b A R acc Ha Hb Hf; (destruct fuel as [|f]; [cbn in Hf; lia|]); cbn [read_frame1 chunks_oct flat_map] in *.
    - change (16 <? 8 * Z.of_nat (length (@nil N)))%Z with false. cbv iota. exists b. change (bits_of_bytes []) with (@nil bool) in *. rewrite !app_nil_r. now split.
    - fold (chunks_oct ws r) in *. cbn [fst snd] in *. rewrite bob_app, <- app_assoc in Hb. rewrite app_length.
      assert (L4 : (4 <= length (chunk_oct ws (k, ops)))%nat) by (apply (chunk_oct_len h ws G He); cbn [snd]; destruct ops; [cbn in Hl; lia|discriminate]).
      destruct (Z.ltb_spec 16 (8 * Z.of_nat (length (chunk_oct ws (k, ops)) + length (chunks_oct ws r)))) as [_|C]; [|lia].
      destruct (read_chunk1_ok h ws G He k ops b A _ Hc Hl Ha Hb) as (b1 & E1 & B1).
      rewrite E1. cbn [bind]. rewrite (rd_left _ _ _ Hb), (rd_left _ _ _ B1), app_length, !bits_of_bytes_length.
      replace (_ - _)%Z with (8 * Z.of_nat (length (chunks_oct ws r)))%Z by (rewrite !app_length, !bits_of_bytes_length; lia).
      destruct (IH f b1 _ R (acc ++ ops) (mod8_app ws He A _ Ha) B1 ltac:(cbn in Hf; lia)) as (b2 & E2 & B2).
      exists b2. rewrite E2, bob_app. split; [now rewrite <- app_assoc|]. now rewrite app_assoc.
  Qed.

  Lemma count_chunks cs : Forall (fun c : chunk => chunk_ok c /\ (1 <= length (snd c) <= 256)%nat) cs -> (length cs <= length (chunks_oct ws cs))%nat.
  Proof.
    induction 1 as [|c r [_ Hc] HF IH]; [cbn; lia|]. cbn [chunks_oct flat_map length]. rewrite app_length.
    assert (snd c <> []) by (destruct (snd c); [cbn in Hc; lia|discriminate]).
    pose proof (chunk_oct_len h ws G He c H). unfold chunks_oct in IH. lia.
  Qed.

  Theorem from_wire1_cut i gid blob k : instr_ok i -> gid < 256 -> at_most_256 i -> to_wire1 h i gid = Ok blob -> (N.of_nat (length blob) <= 65536) ->
    (k < length blob)%nat -> from_wire1 h (firstn k blob) = Err StandardError.
  Proof.
    intros Hi Hg Hm Eb Hl Hk. destruct (to_wire1_ok h ws G He i gid Hi Hg) as (x & Hx & E & Hz).
    set (pay := payload1 ws i) in *. set (len := N.min (lenN pay) 65527) in *.
    assert (Hbl : blob = hdr1 len 1 1234 gid 8 ++ pay ++ x) by congruence. clear E Eb.
    assert (Lp : lenN pay <= 65527) by (rewrite Hbl, !app_length, hdr1_length in Hl; unfold lenN; lia). specialize (Hz Lp). subst x. rewrite app_nil_r in Hbl.
    assert (Elen : len = lenN pay) by (unfold len; lia). assert (Hlen : len < 65536) by lia. clearbody len.
    assert (Hpay : is_bytes pay) by (apply (payload1_bytes h ws G He i Hi)).
    assert (Hhd : is_bytes (hdr1 len 1 1234 gid 8)) by (apply hdr1_bytes; try reflexivity; assumption).
    assert (Hby : is_bytes blob) by (rewrite Hbl; now apply Forall_app).
    assert (Hf : is_bytes (firstn k blob)) by (pose proof Hby as H; rewrite <- (firstn_skipn k blob) in H; apply Forall_app in H; tauto).
    assert (Hs : is_bytes (skipn k blob)) by (pose proof Hby as H; rewrite <- (firstn_skipn k blob) in H; apply Forall_app in H; tauto).
    assert (Lk : length (firstn k blob) = k) by (rewrite firstn_length; lia).
    destruct (Nat.lt_ge_cases k 9) as [K9|K9].
    - apply (from_wire1_short h Hfull); [exact Hf|lia].
    - assert (Ef : firstn k blob = hdr1 len 1 1234 gid 8 ++ firstn (k - 9) pay).
      { rewrite Hbl, firstn_app, hdr1_length. f_equal. apply firstn_all2. rewrite hdr1_length. lia. }
      destruct (from_wire1_frames h (firstn k blob) Hf) as (b & B & ->). rewrite read_frames1_header.
      rewrite Ef, bob_app in B. destruct (header1_ok len gid Hlen Hg b [] _ B) as (b1 & E1 & B1). rewrite E1. cbn [bind app] in *.
      set (q := firstn (k - 9) pay) in *. set (A := bits_of_bytes (hdr1 len 1 1234 gid 8)) in *.
      assert (HA : length A = 72%nat) by (unfold A; rewrite bits_of_bytes_length, hdr1_length; reflexivity).
      assert (Hw : whole A (bits_of_bytes q)).
      { unfold whole. rewrite HA, bits_of_bytes_length. replace (72 + 8 * length q)%nat with ((9 + length q) * 8)%nat by lia. apply Nat.mod_mul. lia. }
      assert (Hn : (length (bits_of_bytes q) < S (bb_num b1))%nat) by (rewrite (rd_num _ _ _ B1); lia).
      pose proof (read_frame1_reads h ws G Hfull (S (bb_num b1)) (Z.of_N len * 8) b1 A _ [] B1 Hw Hn) as H.
      (* the whole message *)
      destruct (from_wire1_frames h blob Hby) as (b2 & B2 & _). rewrite Hbl, bob_app in B2.
      destruct (header1_ok len gid Hlen Hg b2 [] _ B2) as (b3 & _ & B3). cbn [app] in B3. fold A in B3.
      assert (Epay : pay = chunks_oct ws (nonempty (wire_kinds i))) by (unfold pay, payload1; now rewrite chunks_nonempty).
      pose proof (nonempty_ok ws He i Hi Hm) as Hok. pose proof (count_chunks _ Hok) as Hcnt. rewrite <- Epay in Hcnt.
      pose proof B3 as B4. rewrite Epay, <- (app_nil_r (bits_of_bytes _)) in B4.
      destruct (read_frame1_all _ Hok (S (length (bits_of_bytes pay))) b3 A [] [] ltac:(rewrite HA; reflexivity) B4) as (b5 & E5 & B5).
      { rewrite bits_of_bytes_length. lia. }
      rewrite <- Epay in E5, B5. replace (8 * Z.of_nat (length pay))%Z with (Z.of_N len * 8)%Z in E5 by (rewrite Elen; unfold lenN; lia).
      set (rest := skipn (k - 9) pay). assert (Es : pay = q ++ rest) by (unfold q, rest; now rewrite firstn_skipn).
      assert (Lr : (1 <= length rest)%nat) by (unfold rest; rewrite skipn_length; rewrite Hbl, app_length, hdr1_length in Hk; lia).
      rewrite Es, bob_app in B3.
      destruct (read_frame1 (S (bb_num b1)) h (Z.of_N len * 8) b1 []) as [[ops b6]|e]; cbn [bind].
      + exfalso. destruct H as (u & R' & got & Eu & _ & _ & _ & _ & Hmono). rewrite Eu, <- app_assoc in B3.
        destruct (Hmono (S (length (bits_of_bytes pay))) b3 _ B3) as (c & Ec & Bc).
        { rewrite app_assoc, <- Eu, <- bob_app, <- Es. lia. }
        rewrite E5 in Ec. injection Ec as _ <-. pose proof (rd_left _ _ _ B5) as L1. rewrite (rd_left _ _ _ Bc) in L1.
        rewrite app_length, bits_of_bytes_length in L1. cbn [length] in L1. lia.
      + destruct H as [->|[_ Hmono]]; [reflexivity|]. exfalso. rewrite (Hmono (S (length (bits_of_bytes pay))) b3 _ B3) in E5; [discriminate|].
        rewrite <- bob_app, <- Es. lia.
  Qed.
End Cut.
