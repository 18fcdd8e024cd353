(** * Property C118: delta2's messages, bit by bit. *)
From Coq Require Import String List NArith ZArith Bool Arith Lia ZifyN ZifyNat.
From Verif Require Import PyBase NBits Bits BB_Model BB_Spec BB_Proofs Prop_BB BB_Read D2Huff_Model D2Huff_Proofs D2Huff_Dict Prop_D2Huff
  D2Wire_Model D2Wire_Proofs D2Wire_Frame Prop_D2Wire Prop_D2HuffOpt PyStr Lib_Model Small_Model D2Store_Model D2Code_Model D2Code_Store D2Code_Exec
  D2Code_Make D2Code_Round D2Code_Says D2Code_Choice Prop_D2Code Prop_D2Repeat.
Import ListNotations.
Open Scope N_scope.
Open Scope py_scope.

(** ** Specification *)

(** Three bits at a time, the lowest first, each time after a bit that tells whether
    more follow. *)
Inductive groups : N -> list bool -> Prop :=
| last_group v : v < 8 -> groups v (false :: bits_of 3 v)
| more_groups v bs : 8 <= v -> groups (v / 8) bs -> groups v (true :: bits_of 3 (v mod 8) ++ bs).

(** An index: eight bits, sixteen bits, or four bits, fifteen meaning that what is
    above it follows in groups. *)
Inductive index : iwidth -> N -> list bool -> Prop :=
| index_8 v : index Int8 v (bits_of 8 v)
| index_16 v : index Int16 v (bits_of 16 v)
| index_4 v : v < 15 -> index VarInt v (bits_of 4 v)
| index_long v bs : 15 <= v -> groups (v - 15) bs -> index VarInt v ([true; true; true; true] ++ bs).

Section Message.
  Context (h : huffman) (w : iwidth).

  (** A text that starts after [n] bits: the words of its octets, that of the end
      mark, and zeros up to the end of the octet. *)
  Inductive text (n : nat) (s : str) : list bool -> Prop :=
  | text_is k : (k < 8)%nat -> ((n + length (flat_map (word_for h) (s ++ [256]%N)) + k) mod 8 = 0)%nat ->
      text n s (flat_map (word_for h) (s ++ [256]) ++ repeat false k).

  Inductive instruction (n : nat) : op -> list bool -> Prop :=
  | is_toggl e i a : index w i a -> instruction n (OToggl e (Z.of_N i)) a
  | is_trang e i j a b : index w i a -> index w j b -> instruction n (OTrang e (Z.of_N i) (Z.of_N j)) (a ++ b)
  | is_clone e i v a b : index w i a -> text (n + length a) v b -> instruction n (OClone e (Z.of_N i) v) (a ++ b)
  | is_kvsto e k v a b : text n k a -> text (n + length a) v b -> instruction n (OKvsto e k v) (a ++ b).

  Inductive instrs : nat -> list op -> list bool -> Prop :=
  | no_instr n : instrs n [] []
  | one_more n o ops a b : instruction n o a -> instrs (n + length a) ops b -> instrs n (o :: ops) (a ++ b).

  (** The numbers of the opcodes: a zero, two bits for the kind and one for ephemeral. *)
  Definition opcode_bits (c : opcode) : list bool :=
    match fst c with
    | Toggl => [false; false; false; snd c]
    | Trang => [false; false; true; snd c]
    | Clone => [false; true; false; snd c]
    | Kvsto => [false; true; true; snd c]
    end.

  (** The instructions of one opcode after the other; up to sixteen follow an octet
      with the opcode and one less than how many there are. *)
  Inductive body : nat -> instructions -> list bool -> Prop :=
  | body_end n : body n [] []
  | body_next n c is bs : body n is bs -> body n ((c, []) :: is) bs
  | body_chunk n c ops rest is a b : ops <> [] -> (length ops <= 16)%nat -> (rest <> [] -> length ops = 16%nat) ->
      instrs (n + 8) ops a -> body (n + 8 + length a) ((c, rest) :: is) b ->
      body n ((c, ops ++ rest) :: is) (opcode_bits c ++ bits_of 4 (lenN ops - 1) ++ a ++ b).

  (** The octets of a frame.  When there are more than 65527, each frame has all
      that is left of them but takes only 65527 of them into account. *)
  Definition frame_head (len group : N) : str := [len / 256; len mod 256; 8; 1; 128; 0; 255; 255; group].
  Inductive framed (group : N) : str -> str -> Prop :=
  | last_frame p : lenN p <= 65527 -> framed group p (frame_head (lenN p) group ++ p)
  | more_frames p r : 65527 < lenN p -> framed group (skipn (N.to_nat 65527) p) r -> framed group p (frame_head 65527 group ++ p ++ r).

  (** The body's bits, with zeros up to the end of the octet, framed. *)
  Definition written (is : instructions) (group : N) (blob : str) : Prop :=
    exists bs k p, body 0 is bs /\ (k < 8)%nat /\ is_bytes p /\ bits_of_bytes p = bs ++ repeat false k /\ framed group p blob.
End Message.

(** ** Proofs *)

Lemma vbits_groups f : forall v, v < 2 ^ N.of_nat f -> groups v (vbits f v).
Proof.
  induction f as [|f IH]; intros v H; cbn [vbits].
  - replace v with 0 by (cbn in H; lia). apply (last_group 0). lia.
  - destruct (N.ltb_spec 7 v) as [L|L].
    + assert (E : bits_of 4 (8 + v mod 8) = true :: bits_of 3 (v mod 8)).
      { pose proof (N.mod_lt v 8 ltac:(lia)). revert H0. generalize (v mod 8). apply (eight_cases (fun x => bits_of 4 (8 + x) = true :: bits_of 3 x)); reflexivity. }
      rewrite E. apply (more_groups v); [lia|]. apply IH. rewrite pow2_S in H. apply N.div_lt_upper_bound; lia.
    + assert (E : bits_of 4 v = false :: bits_of 3 v).
      { assert (H0 : v < 8) by lia. revert H0. clear. revert v. apply (eight_cases (fun x => bits_of 4 x = false :: bits_of 3 x)); reflexivity. }
      rewrite E. apply last_group. lia.
Qed.

Lemma bits_of_16 v : v < 65536 -> bits_of_bytes (o16 v) = bits_of 16 v.
Proof.
  intros H. unfold o16. cbn [bits_of_bytes flat_map]. rewrite app_nil_r.
  rewrite <- (bits_of_val (bits_of 8 (v / 256) ++ bits_of 8 (v mod 256))). rewrite app_length, !bits_of_length. change (8 + 8)%nat with 16%nat. f_equal.
  rewrite val_of_app. rewrite !val_of_bits_small; cbn [N.of_nat Pos.of_succ_nat Pos.succ]; change (2 ^ 8) with 256.
  - unfold lenN. rewrite bits_of_length. change (2 ^ N.of_nat 8) with 256. pose proof (N.div_mod v 256 ltac:(lia)). lia.
  - apply N.mod_lt. lia.
  - apply N.div_lt_upper_bound; lia.
Qed.
Lemma index_is w i : index_ok w i -> index w (Z.to_N i) (index_bits w i).
Proof.
  destruct w; cbn [index_ok index_bits]; intros H.
  - constructor.
  - rewrite bits_of_16 by lia. constructor.
  - unfold varint_bits. destruct (N.ltb_spec (Z.to_N i) 15) as [L|L]; [now constructor|]. change (bits_of 4 15) with [true; true; true; true]. apply index_long; [exact L|].
    apply vbits_groups. pose proof (size_nat_gt (Z.to_N i)). lia.
Qed.
Lemma head_is c m : m < 16 -> bits_of 8 (opcode_val c * 16 + m) = opcode_bits c ++ bits_of 4 m.
Proof.
  intros H. assert (Hm : In m [0; 1; 2; 3; 4; 5; 6; 7; 8; 9; 10; 11; 12; 13; 14; 15]) by (cbn; lia). clear H.
  destruct c as [[] []]; repeat (destruct Hm as [<-|Hm]; [reflexivity|]); contradiction.
Qed.
Lemma pad_len_ok n : (pad_len n < 8 /\ (n + pad_len n) mod 8 = 0)%nat.
Proof.
  unfold pad_len. split; [apply Nat.mod_upper_bound; lia|]. pose proof (Nat.div_mod n 8 ltac:(lia)). pose proof (Nat.mod_upper_bound n 8 ltac:(lia)).
  destruct (Nat.eq_dec (n mod 8) 0) as [Z|Z].
  - rewrite Z. change ((8 - 0) mod 8)%nat with 0%nat. now rewrite Nat.add_0_r.
  - rewrite (Nat.mod_small (8 - n mod 8)) by lia. replace (n + (8 - n mod 8))%nat with ((n / 8 + 1) * 8)%nat by lia. apply Nat.mod_mul. lia.
Qed.

Section Written.
  Context (h : huffman) (ws : list (list bool)) (G : good h ws) (He : 256 < lenN ws) (w : iwidth).

  Lemma words_are s : flat_map (word_for h) (s ++ [256]) = raw_bits ws s.
  Proof.
    unfold raw_bits, bits_for. rewrite flat_map_app. cbn [flat_map]. rewrite app_nil_r.
    assert (E : forall x, word_for h x = word_of ws x) by (intros x; apply (word_for_ws h ws x (g_codes _ _ G))).
    rewrite E. f_equal. apply flat_map_ext. exact E.
  Qed.
  Lemma text_is_sbits n s : text h n s (sbits ws n s).
  Proof.
    unfold sbits. rewrite <- words_are. apply text_is; [apply pad_len_ok|]. apply pad_len_ok.
  Qed.
  Lemma instruction_is n o : op_ok w o -> instruction h w n o (op_bits ws w n o).
  Proof.
    destruct o as [e i|e i j|e i v|e k v]; cbn [op_ok op_bits].
    - intros H. pose proof (index_is w i H) as X. assert (0 <= i)%Z by (destruct w; cbn in H; lia).
      replace i with (Z.of_N (Z.to_N i)) at 1 by lia. now constructor.
    - intros [H H']. pose proof (index_is w i H) as X. pose proof (index_is w j H') as Y. assert (0 <= i /\ 0 <= j)%Z by (destruct w; cbn in H, H'; lia).
      replace i with (Z.of_N (Z.to_N i)) at 1 by lia. replace j with (Z.of_N (Z.to_N j)) at 1 by lia. now constructor.
    - intros [H _]. pose proof (index_is w i H) as X. assert (0 <= i)%Z by (destruct w; cbn in H; lia).
      replace i with (Z.of_N (Z.to_N i)) at 1 by lia. constructor; [exact X|apply text_is_sbits].
    - intros _. constructor; apply text_is_sbits.
  Qed.
  Lemma instrs_are ops : Forall (op_ok w) ops -> forall n, instrs h w n ops (ops_bits ws w n ops).
  Proof.
    induction 1 as [|o ops Ho HF IH]; intros n; cbn [ops_bits]; [constructor|]. constructor; [now apply instruction_is|apply IH].
  Qed.
  Lemma body_is is : Forall (kind_ok w) is -> forall n, body h w n is (cbits ws w n (cut is)).
  Proof.
    induction 1 as [|[c ops] is Hk HF IH]; intros n; [constructor|].
    unfold cut. cbn [flat_map fst snd]. fold (cut is).
    assert (K : forall fuel ops n, (length ops <= fuel)%nat -> Forall (op_ok w) ops ->
      body h w n ((c, ops) :: is) (cbits ws w n (map (pair c) (cut16 fuel ops) ++ cut is))).
    { clear - IH G He. induction fuel as [|f IHf]; intros ops n Hf Ho; destruct ops as [|o r]; try (cbn in Hf; lia).
      1, 2: cbn [cut16 map app]; constructor; apply IH.
      cbn [cut16]. remember (o :: r) as l eqn:El. set (k := Nat.min (length l) 16). cbn [map app cbits]. unfold chunk_bits, head_val. cbn [fst snd].
      assert (Hk1 : (1 <= k <= 16)%nat) by (unfold k; rewrite El; cbn [length]; lia).
      assert (Hk2 : length (firstn k l) = k) by (rewrite firstn_length; unfold k; lia).
      rewrite head_is by (unfold lenN; lia). rewrite <- !app_assoc. rewrite <- (firstn_skipn k l) at 1.
      assert (Ha : Forall (op_ok w) (firstn k l) /\ Forall (op_ok w) (skipn k l)) by (rewrite <- Forall_app, firstn_skipn; exact Ho).
      apply body_chunk.
      - intros Hz. rewrite Hz in Hk2. cbn in Hk2. lia.
      - lia.
      - intros Hr. rewrite Hk2. destruct (Nat.le_gt_cases 16 (length l)) as [L|L]; [unfold k; lia|]. exfalso. apply Hr. apply skipn_all2. unfold k. lia.
      - now apply instrs_are.
      - assert (Lh : length (opcode_bits c) = 4%nat) by (destruct c as [[] ?]; reflexivity).
        rewrite !app_length, Lh, bits_of_length.
        replace (n + 8 + length (ops_bits ws w (n + 8) (firstn k l)))%nat with (n + (4 + (4 + length (ops_bits ws w (n + 8) (firstn k l)))))%nat by lia.
        apply IHf; [rewrite skipn_length; lia|apply Ha]. }
    apply K; [lia|]. unfold kind_ok in Hk. cbn [fst snd] in Hk. eapply Forall_impl; [|exact Hk]. cbn. tauto.
  Qed.

  Lemma frames_are gid : gid < 256 -> forall fuel p b A R, is_bytes p -> (length p < fuel)%nat -> rd b A R ->
    exists b' y, frames fuel b p (lenN p) 65527 0xffff gid = Ok b' /\ framed gid p y /\ is_bytes y /\ rd b' A (R ++ bits_of_bytes y).
  Proof.
    intros Hg. induction fuel as [|f IH]; intros p b A R Hp Hf Hb; [lia|]. cbn [frames]. cbv zeta.
    set (c := N.min (lenN p) 65527). destruct (N.leb_spec c (lenN p)) as [_|L]; [|unfold c in L; lia].
    assert (Hc : c < 65536) by (unfold c; lia).
    destruct (boilerplate_ok c 1 0xffff gid 8 b A R Hc ltac:(lia) sid_ok Hg ltac:(lia) Hb) as (b1 & E1 & B1). rewrite E1. cbn [bind].
    destruct (store_octets b1 A _ p (N.to_nat c) B1 Hp) as (b2 & E2 & B2). rewrite E2. cbn [bind].
    rewrite <- app_assoc, <- bob_app in B2.
    assert (Eh : hdr c 1 0xffff gid 8 = frame_head c gid) by reflexivity. rewrite Eh in B2.
    assert (Hh : is_bytes (frame_head c gid)) by (rewrite <- Eh; apply hdr_bytes; try reflexivity; assumption).
    destruct (N.leb_spec (lenN p) 65527) as [L|L].
    - exists b2, (frame_head (lenN p) gid ++ p). assert (Ec : c = lenN p) by (unfold c; lia). rewrite <- Ec. split; [reflexivity|]. split; [rewrite Ec; now apply last_frame|].
      split; [apply Forall_app; now split|exact B2].
    - assert (Ec : c = 65527) by (unfold c; lia). rewrite Ec in *.
      assert (Hsk : is_bytes (skipn (N.to_nat 65527) p)).
      { unfold is_bytes in *. rewrite <- (firstn_skipn (N.to_nat 65527) p) in Hp. apply Forall_app in Hp. apply Hp. }
      assert (Hlen : lenN p - 65527 = lenN (skipn (N.to_nat 65527) p)) by (unfold lenN in *; rewrite skipn_length; clear -L; lia).
      rewrite Hlen. assert (Hsl : (length (skipn (N.to_nat 65527) p) < f)%nat).
      { clear IH. rewrite skipn_length. unfold lenN in *. clear -Hf L. lia. }
      destruct (IH (skipn (N.to_nat 65527) p) b2 A _ Hsk Hsl B2) as (b3 & y & E3 & Fy & Hy & B3).
      exists b3, (frame_head 65527 gid ++ p ++ y). split; [exact E3|]. split; [apply more_frames; [exact L|exact Fy]|].
      split; [apply Forall_app; split; [exact Hh|apply Forall_app; split; [exact Hp|exact Hy]]|].
      rewrite <- app_assoc, <- bob_app, <- app_assoc in B3. exact B3.
  Qed.

  Lemma to_wire_is is gid : Forall (kind_ok w) is -> gid < 256 -> exists blob, to_wire w h is gid = Ok blob /\ written h w is gid blob.
  Proof.
    intros Hk Hg. unfold to_wire, serialize.
    destruct (output_all_ok h ws G He w is Hk bb_new [] [] wr_new) as (pb & E0 & B0 & _ & _). rewrite E0. cbn [bind].
    unfold bb_all. destruct (rd_out _ _ _ B0) as [Eo _]. rewrite Eo, (rd_num _ _ _ B0). cbn [app length Nat.add]. fold (payload ws w is).
    destruct (boilerplate_ok 0 0 0 gid 0 bb_new [] [] ltac:(reflexivity) ltac:(reflexivity) ltac:(reflexivity) Hg ltac:(reflexivity) wr_new) as (fb & Ef & Bf).
    rewrite Ef. cbn [bind]. cbv zeta.
    assert (Efb : bb_bytes fb = 9%nat).
    { unfold bb_bytes. rewrite (rd_num _ _ _ Bf). cbn [app]. rewrite bits_of_bytes_length, hdr_length. reflexivity. }
    rewrite Efb. change (65536 - N.of_nat 9) with 65527.
    replace (N.of_nat ((length (cbits ws w 0 (cut is)) + 7) / 8)) with (lenN (payload ws w is)) by (unfold lenN, payload; rewrite bytes_of_bits_len; reflexivity).
    destruct (frames_are gid Hg (S (length (payload ws w is))) (payload ws w is) bb_new [] [] (payload_bytes ws w is) ltac:(lia) wr_new) as (b & y & E & Fy & Hy & B).
    rewrite E. cbn [bind app] in *. destruct (copy_bits b _ B) as (d & Ed & Bd). rewrite Ed. cbn [bind fst]. eexists. split; [reflexivity|].
    destruct (rd_out _ _ _ Bd) as [-> _]. cbn [app]. rewrite (bytes_of_bits_of_bytes y Hy).
    exists (cbits ws w 0 (cut is)), (pad_len (length (cbits ws w 0 (cut is)))), (payload ws w is).
    split; [now apply body_is|]. split; [apply pad_len_ok|]. split; [apply payload_bytes|]. split; [apply payload_bits|exact Fy].
  Qed.
End Written.

(** The description fits one sequence of bits only. *)
Lemma groups_det v a : groups v a -> forall b, groups v b -> a = b.
Proof.
  induction 1 as [v L|v x L H IH]; intros b Hb; inversion Hb as [v' L'|v' y L' H']; subst; try lia; [reflexivity|]. now rewrite (IH _ H').
Qed.
Lemma index_det w v a b : index w v a -> index w v b -> a = b.
Proof.
  intros H H'. destruct H as [v|v|v L|v x L H]; inversion H' as [v'|v'|v' L'|v' y L' H'']; subst; try reflexivity; try lia. now rewrite (groups_det _ _ H _ H'').
Qed.
Lemma zeros_det n k k' : (k < 8 -> k' < 8 -> (n + k) mod 8 = 0 -> (n + k') mod 8 = 0 -> k = k')%nat.
Proof.
  intros H H' E E'. pose proof (Nat.div_mod (n + k) 8 ltac:(lia)). pose proof (Nat.div_mod (n + k') 8 ltac:(lia)). lia.
Qed.
Lemma text_det h n s a b : text h n s a -> text h n s b -> a = b.
Proof. intros [k Hk E] [k' Hk' E']. now rewrite (zeros_det _ k k' Hk Hk' E E'). Qed.
Lemma instruction_det h w n o a b : instruction h w n o a -> instruction h w n o b -> a = b.
Proof.
  intros H H'. destruct H; inversion H'; subst;
    repeat match goal with E : Z.of_N _ = Z.of_N _ |- _ => apply N2Z.inj in E; subst end;
    repeat match goal with X : index w ?i ?x, Y : index w ?i ?y |- _ => assert (x = y) by (exact (index_det _ _ _ _ X Y)); subst; clear Y end;
    repeat match goal with X : text h ?m ?s ?x, Y : text h ?m ?s ?y |- _ => assert (x = y) by (exact (text_det _ _ _ _ _ X Y)); subst; clear Y end; reflexivity.
Qed.
Lemma instrs_det h w n ops a : instrs h w n ops a -> forall b, instrs h w n ops b -> a = b.
Proof.
  induction 1 as [n|n o ops x y I H IH]; intros b Hb; inversion Hb as [|? ? ? x' y' I' H']; subst; [reflexivity|].
  assert (x' = x) by (exact (instruction_det _ _ _ _ _ _ I' I)). subst. now rewrite (IH _ H').
Qed.
Lemma first_chunk {A} (a b c d : list A) : a ++ b = c ++ d -> a <> [] -> c <> [] -> (length a <= 16)%nat -> (length c <= 16)%nat ->
  (b <> [] -> length a = 16%nat) -> (d <> [] -> length c = 16%nat) -> a = c /\ b = d.
Proof.
  intros E _ _ La Lc Hb Hd. apply app_split; [|exact E]. assert (L : length (a ++ b) = length (c ++ d)) by now rewrite E. rewrite !app_length in L.
  destruct b as [|x b], d as [|y d]; cbn [length] in L; try specialize (Hb ltac:(discriminate)); try specialize (Hd ltac:(discriminate)); lia.
Qed.
Lemma body_det h w n is a : body h w n is a -> forall b, body h w n is b -> a = b.
Proof.
  induction 1 as [n|n c is x H IH|n c ops rest is x y Ne L16 Lr I H IH]; intros b Hb.
  - now inversion Hb.
  - inversion Hb as [|? ? ? x' H'|? ? ops' ? ? ? ? Ne']; subst; [now apply IH|]. exfalso. destruct ops'; cbn [app] in *; congruence.
  - inversion Hb as [|? ? ? x' H' Hs|n' c' ops' rest' is' x' y' Ne' L16' Lr' I' H' En Ei]; subst.
    + exfalso. destruct ops; cbn [app] in *; congruence.
    + match goal with Ei : ops' ++ rest' = ops ++ rest |- _ => destruct (first_chunk _ _ _ _ Ei Ne' Ne L16' L16 Lr' Lr) as [-> ->] end. assert (x' = x) by (exact (eq_sym (instrs_det _ _ _ _ _ I _ I'))). subst x'.
      now rewrite (IH _ H').
Qed.
Lemma framed_det g p a : framed g p a -> forall b, framed g p b -> a = b.
Proof.
  induction 1 as [p L|p r L F IH]; intros b Hb; inversion Hb as [p' L'|p' r' L' F']; subst.
  - reflexivity.
  - exfalso. clear -L L'. lia.
  - exfalso. clear -L L'. lia.
  - rewrite (IH _ F'). reflexivity.
Qed.
Lemma written_det h w is g a b : written h w is g a -> written h w is g b -> a = b.
Proof.
  intros (x & k & p & Bx & Hk & Hp & Ep & F) (y & k' & q & By & Hk' & Hq & Eq & F'). assert (x = y) by (exact (body_det _ _ _ _ _ Bx _ By)). subst y.
  assert (E : k = k').
  { assert (L : forall p k, bits_of_bytes p = x ++ repeat false k -> ((length x + k) mod 8 = 0)%nat).
    { intros p0 k0 E. assert (E2 : length (bits_of_bytes p0) = (length x + k0)%nat) by (rewrite E, app_length, repeat_length; reflexivity).
      rewrite bits_of_bytes_length in E2. rewrite <- E2. rewrite Nat.mul_comm. apply Nat.mod_mul. lia. }
    exact (zeros_det (length x) k k' Hk Hk' (L _ _ Ep) (L _ _ Eq)). }
  subst k'. assert (p = q) by (apply bits_of_bytes_inj; [exact Hp|exact Hq|congruence]). subst q. exact (framed_det _ _ _ F _ F').
Qed.

(** ** C118 *)

(** The octets of a message are those of the description, and no others are. *)
Theorem C118_bits : forall h w is gid blob, coder h -> valid w is -> gid < 256 -> (to_wire w h is gid = Ok blob <-> written h w is gid blob).
Proof.
  intros h w is gid blob Hh Hv Hg. destruct (coder_good h Hh) as (ws & G & He). destruct (to_wire_is h ws G He w is gid (valid_kind w is Hv) Hg) as (b & E & W). split.
  - intros E'. assert (b = blob) by congruence. now subst.
  - intros W'. rewrite E. f_equal. exact (written_det _ _ _ _ _ _ W W').
Qed.
Print Assumptions C118_bits.

(** In a session: the octets of every message describe the instructions that the table
    and the header group call for (C97). *)
Theorem C118_session : forall h o c d m c' blob, coder h -> session h o c d -> message_ok m ->
  compress_group h (msg_sender m) c (msg_headers m) (msg_group m) = Ok (c', blob) ->
  exists is ops, written h (c_width (config o)) is (msg_group m) blob /\ Forall2 (means_op o c) (flat_map snd is) ops /\
    chosen o c (msg_group m) (msg_headers m) ops.
Proof.
  intros h o c d m c' blob Hh S Hm E. destruct (session_cfg h o c d Hh S) as [Ec K]. pose proof Hm as (Hb & Hg & Ho & _).
  destruct (make_ok (msg_sender m) c (msg_headers m) (msg_group m) K Ho Hb) as (c2 & is & E1 & K2 & Ec2 & V & _).
  destruct (make_chosen o _ c _ _ c2 is K Ec Ho Hb E1) as (ops & M & C). exists is, ops. split; [|now split].
  unfold compress_group in E. rewrite E1 in E. cbn [bind] in E. rewrite Ec2, Ec in E. destruct (to_wire (c_width (config o)) h is (msg_group m)) as [b|] eqn:Ew; [|discriminate].
  cbn [bind] in E. assert (b = blob) by congruence. subst b. apply (C118_bits h _ is _ blob Hh); [now rewrite <- Ec|exact Hg|exact Ew].
Qed.
Print Assumptions C118_session.

(** The size of an index of variable length, in bits. *)
Theorem C118_index_size : forall v bs, index VarInt v bs -> lenN bs = if v <? 15 then 4 else 8 + 4 * (N.log2 (v - 15) / 3).
Proof.
  assert (Gr : forall v bs, groups v bs -> lenN bs = 4 + 4 * (N.log2 v / 3)).
  { induction 1 as [v L|v bs L H IH].
    - unfold lenN. cbn [length]. rewrite bits_of_length. rewrite (N.div_small (N.log2 v)); [reflexivity|].
      destruct (N.eq_dec v 0) as [->|Hv]; [reflexivity|]. apply N.log2_lt_pow2; [lia|exact L].
    - unfold lenN in *. cbn [length]. rewrite app_length, bits_of_length. rewrite <- N.shiftr_div_pow2 with (n := 3) in IH. rewrite N.log2_shiftr in IH.
      assert (3 <= N.log2 v) by (apply N.log2_le_pow2; [lia|exact L]). replace (N.log2 v) with (N.log2 v - 3 + 1 * 3) by lia. rewrite N.div_add by lia. lia. }
  intros v bs H. inversion H as [| |? L|? x L Hx]; subst.
  - rewrite (proj2 (N.ltb_lt v 15) L). unfold lenN. now rewrite bits_of_length.
  - rewrite (proj2 (N.ltb_ge v 15) L). pose proof (Gr _ _ Hx). unfold lenN in *. cbn [app length]. lia.
Qed.
Print Assumptions C118_index_size.

(** Two toggles, one of them above fourteen, a range, two stored headers and an
    ephemeral one that takes the name of entry 4, with words of eight bits. *)
Example C118_case : exists h, new_huffman int_dict_order (with_symbols small_counts) = Ok h /\
  word_for h 97 = bits_of 8 0x5f /\ word_for h 256 = bits_of 8 0xfe /\
  to_wire VarInt h [((Toggl, false), [OToggl false 3; OToggl false 25]); ((Trang, true), [OTrang true 9 2]);
    ((Kvsto, false), [OKvsto false (lit "a") []; OKvsto false [] (lit "aa")]); ((Clone, true), [OClone true 4 (lit "a")])] 7 =
   Ok ([0; 17; 8; 1; 128; 0; 255; 255; 7] ++
       [0x01; 0x3f; 0xa1] ++                                  (* two toggles: 3, 15 and 10 = 2 + 8 * 1 *)
       [0x30; 0x92] ++                                        (* one ephemeral range: 9, 2 *)
       [0x61; 0x5f; 0xfe; 0xfe; 0xfe; 0x5f; 0x5f; 0xfe] ++    (* two stores *)
       [0x50; 0x45; 0xff; 0xe0]).                             (* one ephemeral clone: 4, then the text at the next four bits *)
Proof. eexists. split; [vm_compute; reflexivity|]. repeat split; vm_compute; reflexivity. Qed.
