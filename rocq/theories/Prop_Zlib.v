(** C109: conversations through the codecs that keep a zlib stream. *)
From Coq Require Import String List NArith ZArith Bool Lia.
From Verif Require Import PyBase PyStr PyMerge Lib_Model Lib_Spec Lib_Proofs H1_Model H1_Spec H1_Proofs Prop_H1 Simple_Model Simple_Spec Simple_Session Prop_Simple Small_Model Prop_Small Zlib_Model.
Import ListNotations.
Open Scope N_scope.
Open Scope py_scope.

(** What is supposed of zlib: a receiver that has read, in order, everything the
    sender has put out, reads from the octets of one more write-and-flush exactly
    what was written. *)
Definition faithful (Z : zlib) : Prop := exists R : zC Z -> zD Z -> Prop,
  R (z_new Z) (d_new Z) /\
  forall c d x, R c d -> exists c' out d', push Z c x = (c', out) /\ feed Z d out = Ok (d', x) /\ R c' d'.

(** A receiver in state [d] reads the texts from the blocks. *)
Fixpoint reads (Z : zlib) (d : zD Z) (blocks texts : list str) : Prop :=
  match blocks, texts with
  | [], [] => True
  | b :: bs, t :: ts => exists d', feed Z d b = Ok (d', t) /\ reads Z d' bs ts
  | _, _ => False
  end.

Lemma reads_inj Z : forall bs d ts1 ts2, reads Z d bs ts1 -> reads Z d bs ts2 -> ts1 = ts2.
Proof.
  induction bs as [|b bs IH]; intros d [|t1 ts1] [|t2 ts2] H1 H2; cbn [reads] in *; try contradiction; [reflexivity|].
  destruct H1 as (d1 & E1 & H1), H2 as (d2 & E2 & H2). assert (d1 = d2 /\ t1 = t2) as [-> ->] by (split; congruence).
  f_equal. exact (IH _ _ _ H1 H2).
Qed.

(** ** http1_gzip, http1_huffman *)

(** A receiver that starts with the octets the sender dropped (and so with the
    dictionary) reads from the messages' octets the messages' HTTP/1 texts. *)
Theorem C109_gzip_session : forall Z spdy_dict msgs, faithful Z ->
  exists d0, feed Z (d_new Z) (snd (push Z (z_new Z) spdy_dict)) = Ok (d0, spdy_dict) /\
    reads Z d0 (gz_session Z (gz_new Z spdy_dict) msgs) (map http1_compress msgs).
Proof.
  intros Z dict msgs (R & H0 & HR). destruct (HR _ _ dict H0) as (c & out & d & E & F & H).
  unfold gz_new. rewrite E. cbn [fst snd]. exists d. split; [exact F|]. clear E F. revert c d H.
  induction msgs as [|m ms IH]; intros c d H; cbn [gz_session map reads]; [exact I|].
  unfold gz_compress. destruct (HR _ _ (http1_compress m) H) as (c' & o & d' & E & F & H'). rewrite E. cbn [reads].
  exists d'. split; [exact F|]. now apply IH.
Qed.
Print Assumptions C109_gzip_session.

(** So nothing is lost: from those texts the headers can be read back (C31). *)
Theorem C109_gzip_headers : forall Z spdy_dict is_request msgs, faithful Z ->
  Forall (if is_request : bool then wf_request (lit "host") else wf_response (lit "host")) msgs ->
  exists d0 texts, feed Z (d_new Z) (snd (push Z (z_new Z) spdy_dict)) = Ok (d0, spdy_dict) /\
    reads Z d0 (gz_session Z (gz_new Z spdy_dict) msgs) texts /\
    Forall2 (fun m t => exists d, http1_decompress is_request t = Ok d /\
      forall ord, is_order ord -> compare_headers ord m (lit "orig") d (lit "http1") = []) msgs texts.
Proof.
  intros Z dict r msgs HZ HF. destruct (C109_gzip_session Z dict msgs HZ) as (d0 & E & HR).
  exists d0, (map http1_compress msgs). split; [exact E|]. split; [exact HR|]. clear E HR.
  induction HF as [|m ms H _ IH]; cbn [map]; constructor; [|exact IH].
  assert (exists d, http1_decompress r (http1_compress m) = Ok d) as [d Ed].
  { destruct r; [destruct (C31_http1_request_roundtrip m H) as (d & Ed & _)|destruct (C31_http1_response_roundtrip m H) as (d & Ed & _)]; eauto. }
  exists d. split; [exact Ed|]. intros ord Ho. refine (C31_http1_passes_harness_check ord r m d Ho _ Ed). destruct r; exact H.
Qed.
Print Assumptions C109_gzip_headers.

(** Two conversations that put out the same octets were of the same texts. *)
Theorem C109_gzip_determined : forall Z spdy_dict msgs1 msgs2, faithful Z ->
  gz_session Z (gz_new Z spdy_dict) msgs1 = gz_session Z (gz_new Z spdy_dict) msgs2 ->
  map http1_compress msgs1 = map http1_compress msgs2.
Proof.
  intros Z dict m1 m2 HZ E. destruct (C109_gzip_session Z dict m1 HZ) as (d1 & F1 & H1). destruct (C109_gzip_session Z dict m2 HZ) as (d2 & F2 & H2).
  rewrite <- E in H2. assert (d1 = d2) as <- by congruence. exact (reads_inj Z _ _ _ _ H1 H2).
Qed.
Print Assumptions C109_gzip_determined.

(** ** spdy3 *)

(** A receiver takes the first twelve octets of a frame as they are and inflates
    the rest. *)
Fixpoint reads_frames (Z : zlib) (d : zD Z) (frames raws : list str) : Prop :=
  match frames, raws with
  | [], [] => True
  | f :: fs, r :: rs => exists d' x, feed Z d (skipn 12 f) = Ok (d', x) /\ r = firstn 12 f ++ x /\ reads_frames Z d' fs rs
  | _, _ => False
  end.

Lemma reads_frames_inj Z : forall fs d rs1 rs2, reads_frames Z d fs rs1 -> reads_frames Z d fs rs2 -> rs1 = rs2.
Proof.
  induction fs as [|f fs IH]; intros d [|r1 rs1] [|r2 rs2] H1 H2; cbn [reads_frames] in *; try contradiction; [reflexivity|].
  destruct H1 as (d1 & x1 & E1 & -> & H1), H2 as (d2 & x2 & E2 & -> & H2). assert (d1 = d2 /\ x1 = x2) as [-> ->] by (split; congruence).
  f_equal. exact (IH _ _ _ H1 H2).
Qed.

(** When every block has at least twelve octets. *)
Definition long_block (m : hdict) : Prop := exists raw, spdy3_format m = Ok raw /\ (12 <= length raw)%nat.

Theorem C109_spdy3_session : forall Z dict_param spdy_dict msgs, faithful Z -> Forall long_block msgs ->
  exists d0 frames raws,
    (if dict_param : bool then feed Z (d_new Z) (snd (push Z (z_new Z) spdy_dict)) = Ok (d0, spdy_dict) else d0 = d_new Z) /\
    sp_session Z (sp_new Z dict_param spdy_dict) msgs = Ok frames /\
    Forall2 (fun m raw => spdy3_format m = Ok raw) msgs raws /\ reads_frames Z d0 frames raws.
Proof.
  intros Z p dict msgs (R & H0 & HR) HF.
  assert (exists c d0, sp_new Z p dict = c /\ R c d0 /\ if p then feed Z (d_new Z) (snd (push Z (z_new Z) dict)) = Ok (d0, dict) else d0 = d_new Z) as (c & d0 & -> & H & HP).
  { unfold sp_new. destruct p; [|eauto]. destruct (HR _ _ dict H0) as (c & out & d & E & F & H). rewrite E. cbn [fst snd]. eauto. }
  exists d0. cut (exists frames raws, sp_session Z c msgs = Ok frames /\ Forall2 (fun m raw => spdy3_format m = Ok raw) msgs raws /\ reads_frames Z d0 frames raws).
  { intros (fs & rs & A & B & C). exists fs, rs. auto. }
  clear HP. revert c d0 H. induction HF as [|m ms (raw & Er & Hl) _ IH]; intros c d H.
  - exists [], []. split; [reflexivity|]. split; [constructor|exact I].
  - cbn [sp_session]. unfold sp_compress. rewrite Er. cbn [bind].
    destruct (HR _ _ (skipn 12 raw) H) as (c' & o & d' & E & F & H'). rewrite E. cbn [bind].
    destruct (IH c' d' H') as (fs & rs & A & B & C). rewrite A. cbn [bind].
    assert (L : length (firstn 12 raw) = 12%nat) by (rewrite firstn_length; lia).
    exists ((firstn 12 raw ++ o) :: fs), (raw :: rs). split; [reflexivity|]. split; [constructor; assumption|].
    cbn [reads_frames]. exists d', (skipn 12 raw). split; [|split; [|exact C]].
    + rewrite skipn_app, L, Nat.sub_diag, skipn_O, <- L at 1. now rewrite skipn_all.
    + rewrite firstn_app, L, Nat.sub_diag, firstn_O, app_nil_r, firstn_firstn, Nat.min_id. symmetry. apply firstn_skipn.
Qed.
Print Assumptions C109_spdy3_session.

(** Then the frames of a conversation determine all its headers. *)
Theorem C109_spdy3_determined : forall Z dict_param spdy_dict msgs1 msgs2 frames, faithful Z ->
  Forall long_block msgs1 -> Forall long_block msgs2 ->
  sp_session Z (sp_new Z dict_param spdy_dict) msgs1 = Ok frames ->
  sp_session Z (sp_new Z dict_param spdy_dict) msgs2 = Ok frames -> msgs1 = msgs2.
Proof.
  intros Z p dict m1 m2 fs HZ L1 L2 E1 E2.
  destruct (C109_spdy3_session Z p dict m1 HZ L1) as (d1 & f1 & r1 & P1 & F1 & W1 & R1).
  destruct (C109_spdy3_session Z p dict m2 HZ L2) as (d2 & f2 & r2 & P2 & F2 & W2 & R2).
  assert (f1 = fs) by congruence. assert (f2 = fs) by congruence. subst f1 f2.
  assert (d1 = d2) as <- by (destruct p; congruence).
  assert (r1 = r2) as <- by exact (reads_frames_inj Z _ _ _ _ R1 R2). clear - W1 W2.
  revert m2 W2. induction W1 as [|a r ms rs Ha _ IH]; intros [|b m2] W2; inversion W2; subst; [reflexivity|].
  assert (a = b) as -> by (eapply C32_spdy3_block_determines_headers; eassumption). rewrite (IH m2 H4). reflexivity.
Qed.
Print Assumptions C109_spdy3_determined.

(** ** simple with [huffman] *)

(** The stream makes no difference: same headers at the other end, or the same
    exception, whatever the other parameters. *)
Theorem C109_simple_huffman_same : forall Z o ord msgs i c d, faithful Z ->
  (forall a, o_enc o a = a) -> (forall a, o_dec o a = Ok a) ->
  hz_session Z o ord i (c, z_new Z) (d, d_new Z) msgs = s_session o ord i c d msgs.
Proof.
  intros Z o ord msgs i c d (R & H0 & HR) Henc Hdec. revert i c d H0. generalize (z_new Z) (d_new Z).
  induction msgs as [|m ms IH]; intros zc zd i c d H; cbn [hz_session s_session]; [reflexivity|].
  unfold hz_compress. cbn [fst snd]. destruct (s_compress o (ord i) c m) as [[last msg]|e]; cbn [bind]; [|reflexivity].
  destruct (HR _ _ msg H) as (zc' & out & zd' & E & F & H'). rewrite E. cbn [bind]. unfold hz_decompress. cbn [fst snd]. rewrite F. cbn [bind].
  destruct (s_decompress o (ord (S i)) d msg) as [[last' hd]|e]; cbn [bind]; [|reflexivity]. now rewrite IH.
Qed.
Print Assumptions C109_simple_huffman_same.

Theorem C109_simple_huffman_session : forall Z is_request max ord msgs, faithful Z -> any_order ord ->
  Forall (simple_message is_request) msgs ->
  exists outs, hz_session Z (opts_plain is_request max) ord 0 (None, z_new Z) (None, d_new Z) msgs = Ok outs /\ Forall2 arrives msgs outs.
Proof.
  intros Z r mx ord msgs HZ Ho HF. rewrite C109_simple_huffman_same by (auto; reflexivity). now apply C30_simple_session.
Qed.
Print Assumptions C109_simple_huffman_session.

(** ** A stream that remembers: the first block starts with a mark, a repetition of
    the block before is one octet, text waits until it is flushed. *)
Definition echo : zlib := mk_zlib (option str * str) (option str) (None, [])
  (fun c x => ((fst c, snd c ++ x), []))
  (fun c => ((Some (snd c), []),
     match fst c with
     | None => 120 :: 43 :: snd c
     | Some l => if str_eqb l (snd c) then [61] else 43 :: snd c
     end))
  None
  (fun d b => match d, b with
     | None, m :: k :: x => if (m =? 120) && (k =? 43) then Some (Some x, x) else None
     | Some l, [61] => Some (Some l, l)
     | Some _, 43 :: x => Some (Some x, x)
     | _, _ => None
     end)
  (fun d => (d, [])).

Lemma echo_faithful : faithful echo.
Proof.
  exists (fun c d => c = (d, [])). split; [reflexivity|]. intros c d x ->. cbn -[str_eqb]. unfold push, feed. cbn -[str_eqb].
  destruct d as [l|].
  - destruct (str_eqb_spec l x) as [->|E].
    + eexists _, _, _. split; [reflexivity|]. cbn. rewrite app_nil_r. auto.
    + eexists _, _, _. split; [reflexivity|]. cbn. rewrite app_nil_r. auto.
  - eexists _, _, _. split; [reflexivity|]. cbn. rewrite app_nil_r. auto.
Qed.

(** The octets dropped at the start are needed: a receiver that gets only what is
    sent with the messages reads nothing. *)
Theorem C109_without_start_refuted : exists Z spdy_dict msgs, faithful Z /\ msgs <> [] /\
  forall texts, ~ reads Z (d_new Z) (gz_session Z (gz_new Z spdy_dict) msgs) texts.
Proof.
  exists echo, (lit "dict"), [c31_req]. split; [exact echo_faithful|]. split; [discriminate|].
  intros [|t ts] H; cbn [reads gz_session] in H; [exact H|]. destruct H as (d' & E & _). revert E. vm_compute. discriminate.
Qed.
Print Assumptions C109_without_start_refuted.

(** With blocks of fewer than twelve octets, where the deflated part begins cannot
    be told from the frame: this stream is faithful, and a frame of it is both
    that of one header and that of three. *)
Definition short_code (x : str) : str :=
  if str_eqb x [] then [0; 0; 9]
  else if str_eqb x [0; 0; 0; 0; 0; 0] then [9]
  else 8 :: x.
Definition short_decode (b : str) : option str :=
  match b with
  | [0; 0; 9] => Some []
  | [9] => Some [0; 0; 0; 0; 0; 0]
  | 8 :: x => Some x
  | _ => None
  end.
Definition shortz : zlib := mk_zlib unit unit tt (fun _ x => (tt, short_code x)) (fun _ => (tt, []))
  tt (fun _ b => match short_decode b with Some x => Some (tt, x) | None => None end) (fun _ => (tt, [])).

Lemma shortz_faithful : faithful shortz.
Proof.
  exists (fun _ _ => True). split; [exact I|]. intros [] [] x _. unfold push, feed. cbn -[short_code short_decode].
  eexists _, _, tt. split; [reflexivity|]. rewrite app_nil_r.
  assert (short_decode (short_code x) = Some x) as ->; [|rewrite app_nil_r; auto].
  unfold short_code. destruct (str_eqb_spec x []) as [->|E]; [reflexivity|].
  destruct (str_eqb_spec x [0; 0; 0; 0; 0; 0]) as [->|E2]; reflexivity.
Qed.

Theorem C109_short_blocks_refuted : exists Z h1 h2 frames, faithful Z /\ h1 <> h2 /\
  sp_session Z (sp_new Z false []) [h1] = Ok frames /\ sp_session Z (sp_new Z false []) [h2] = Ok frames.
Proof.
  exists shortz, [(lit "a", lit "b")], [(lit "a", lit "b"); ([], [])].
  eexists. split; [exact shortz_faithful|]. split; [discriminate|]. split; vm_compute; reflexivity.
Qed.
Print Assumptions C109_short_blocks_refuted.

(** ** Cases *)

Example C109_gzip_case :
  let c := gz_new echo (lit "dict") in
  gz_session echo c [c31_req; c31_req] = [43 :: http1_compress c31_req; lit "="] /\
  wf_request (lit "host") c31_req /\
  gz_session echo (gz_new echo (http1_compress c31_req)) [c31_req] = [lit "="].
Proof. split; [vm_compute; reflexivity|]. split; [exact C31_example_wf|]. vm_compute. reflexivity. Qed.

Example C109_spdy3_case :
  sp_session echo (sp_new echo true (lit "d")) [[(lit "host", lit "abc")]; [(lit "host", lit "xbc")]] =
    Ok [ [0;0;0;4;104;111;115;116;0;0;0;3;43;97;98;99]; [0;0;0;4;104;111;115;116;0;0;0;3;43;120;98;99] ] /\
  Forall long_block [[(lit "host", lit "abc")]; [(lit "host", lit "xbc")]].
Proof.
  split; [vm_compute; reflexivity|]. repeat constructor; eexists; (split; [vm_compute; reflexivity|cbn; lia]).
Qed.

Example C109_simple_case :
  (let* (c, w1) := hz_compress echo (opts_plain true 10) (c30_ord 0) (None, z_new echo) c30_m1 in
   let* (_, w2) := hz_compress echo (opts_plain true 10) (c30_ord 0) c c30_m2 in Ok (firstn 8 w1, w2)) =
  Ok (lit "x+get /a", lit "+get /b H/2" ++ [10] ++ lit "ref:a,!h,!x-a" ++ [10] ++ lit "c:c=1" ++ [10; 10]).
Proof. vm_compute. reflexivity. Qed.
