(** * Properties C82, C83: delta v1's parser given octets that no compressor made,
      and messages that were cut or extended on the way. *)
From Coq Require Import List NArith ZArith Bool Arith Lia ZifyN ZifyNat Permutation.
From Verif Require Import PyBase NBits D2Huff_Model D2Huff_Proofs D1Huff_Model D1Huff_Proofs Prop_D1Huff
  D1Wire_Model D1Wire_Proofs D1Wire_Frame Prop_D1Wire D1Hostile_Proofs D1Code_Model.
Import ListNotations.
Open Scope N_scope.
Open Scope py_scope.

(** ** C82: arbitrary octets *)

(** The number of octets of header text in a list of operations. *)
Fixpoint text (ops : list op1) : nat :=
  match ops with
  | [] => 0
  | Toggl _ :: r | Trang _ _ :: r => text r
  | Clone _ v :: r => length v + text r
  | Kvsto k v :: r | Eref k v :: r => length k + length v + text r
  end.

Lemma cost1_text ops : cost1 ops = (length ops + text ops)%nat.
Proof. induction ops as [|o r IH]; [reflexivity|]. destruct o; cbn [cost1 op_text1 text length]; lia. Qed.

(** Every octet string is parsed, or refused with StandardError because it ends too
    early, or with KeyError; only a coder with more symbols than the 256 octets
    and the end mark can also give OverflowError.  What is parsed is no
    larger than the message, has indices of sixteen bits and is made of octets. *)
Theorem C82_hostile : forall table h blob, d1_huffman table = Ok h -> is_bytes blob ->
  (exists gid ops, from_wire1 h blob = Ok (gid, ops) /\ gid < 256 /\
     (72 + length ops + text ops <= 8 * length blob)%nat /\
     forall o, In o ops ->
       match o with
       | Toggl i => idx_fits i
       | Trang i s => idx_fits i /\ idx_fits s
       | Clone i v => idx_fits i /\ is_bytes v
       | Kvsto k v | Eref k v => is_bytes k /\ is_bytes v
       end) \/
  from_wire1 h blob = Err StandardError \/ from_wire1 h blob = Err KeyError \/
  (257 < length table)%nat /\ from_wire1 h blob = Err OverflowError.
Proof.
  intros table h blob E Hb. destruct (built_numbered table h E) as (ws & G & Hl & _).
  pose proof (from_wire1_total h ws G (d1_full table h E) blob Hb) as H.
  destruct (from_wire1 h blob) as [[gid ops]|e].
  - left. destruct H as (H1 & H2 & H3). rewrite cost1_text in H3. exists gid, ops. split; [reflexivity|]. split; [exact H1|]. split; [lia|].
    intros o Ho. rewrite Forall_forall in H2. specialize (H2 o Ho). destruct o; exact H2.
  - right. destruct H as [->|[->|[-> H]]]; [now left|right; now left|right; right]. split; [|reflexivity]. unfold lenN in H. lia.
Qed.
Print Assumptions C82_hostile.

(** With the tables that are shipped: no OverflowError. *)
Theorem C82_shipped : forall t h blob, t = d1_request_table \/ t = d1_response_table -> d1_huffman t = Ok h -> is_bytes blob ->
  (exists r, from_wire1 h blob = Ok r) \/ from_wire1 h blob = Err StandardError \/ from_wire1 h blob = Err KeyError.
Proof.
  intros t h blob Ht E Hb. assert (Hl : length t = 257%nat) by (destruct Ht as [->| ->]; vm_compute; reflexivity).
  destruct (C82_hostile t h blob E Hb) as [(g & ops & H & _)|[H|[H|[H _]]]]; eauto. lia.
Qed.
Print Assumptions C82_shipped.

(** Octets with every outcome: eight octets, a frame without the last-frame flag
    and nothing after it, an unknown opcode, text that never ends, a message of
    no operations that says it is two octets long, and two frames. *)
Definition hostile_messages1 : list str :=
  [ [0; 1; 1; 0; 0; 0; 0; 8];
    [0; 0; 0; 128; 0; 0; 1; 8; 7];
    [0; 9; 1; 128; 0; 0; 1; 8; 7; 6; 0; 0; 1];
    [0; 9; 1; 128; 0; 0; 1; 8; 7; 4; 0; 3; 3; 3];
    [0; 2; 1; 128; 0; 0; 1; 8; 7; 255];
    [0; 4; 0; 128; 0; 0; 1; 8; 9; 1; 0; 1; 44; 0; 6; 1; 128; 0; 0; 1; 8; 7; 2; 0; 0; 9; 255; 255] ].
Example C82_nontrivial : Forall is_bytes hostile_messages1 /\
  match d1_huffman d1_request_table with
  | Ok h => map (from_wire1 h) hostile_messages1 =
      [Err StandardError; Err StandardError; Err KeyError; Err StandardError; Ok (7, []); Ok (7, [Toggl 300; Trang 9 65535])]
  | Err _ => False
  end.
Proof. split; [repeat constructor|vm_compute; reflexivity]. Qed.

(** OverflowError does happen with one symbol more. *)
Example C82_overflow :
  match d1_huffman (map (fun k => (N.of_nat k, 1)) (seq 0 258)) with
  | Ok h => match huff_encode h [104; 257] true with
            | Ok (o, _) => from_wire1 h ([0; 9; 1; 128; 0; 0; 1; 8; 7; 4; 0] ++ o) = Err OverflowError
            | Err _ => False
            end
  | Err _ => False
  end.
Proof. vm_compute. reflexivity. Qed.

(** ** C83: messages cut short or extended *)

(** Octets after a message that was understood are ignored, and so they are after
    one refused with anything but StandardError; this holds whoever made it. *)
Theorem C83_extended : forall table h blob x, d1_huffman table = Ok h -> is_bytes blob -> is_bytes x ->
  from_wire1 h blob <> Err StandardError -> from_wire1 h (blob ++ x) = from_wire1 h blob.
Proof.
  intros table h blob x E Hb Hx H. destruct (built_numbered table h E) as (ws & G & _). now apply (from_wire1_more h ws G (d1_full table h E)).
Qed.
Print Assumptions C83_extended.

(** Every proper beginning of a compressor's message is refused. *)
Theorem C83_cut : forall table h, d1_huffman table = Ok h -> In 256 (map fst table) ->
  forall i gid blob k, fits i -> gid < 256 ->
  (length (i_toggl i) <= 256)%nat -> (length (i_clone i) <= 256)%nat -> (length (i_kvsto i) <= 256)%nat -> (length (i_eref i) <= 256)%nat ->
  to_wire1 h i gid = Ok blob -> N.of_nat (length blob) <= 65536 -> (k < length blob)%nat ->
  from_wire1 h (firstn k blob) = Err StandardError.
Proof.
  intros table h E Hin i gid blob k Hi Hg H1 H2 H3 H4 Eb Hl Hk. destruct (coder_good table h E Hin) as (ws & G & He).
  destruct (few_toggles _ H1) as [Ha Hb]. apply (from_wire1_cut h ws G He (d1_full table h E) i gid blob k (fits_ok i Hi) Hg); try assumption.
  unfold at_most_256, wire_kinds. destruct (toggle_ranges (i_toggl i)) as [ot otr]. cbn [fst snd] in *.
  repeat apply Forall_cons; try apply Forall_nil; cbn [snd]; rewrite map_length; assumption.
Qed.
Print Assumptions C83_cut.

(** So the decompressor raises before it touches its state. *)
Theorem C83_decompressor : forall table h, d1_huffman table = Ok h -> In 256 (map fst table) ->
  forall i gid blob k, fits i -> gid < 256 ->
  (length (i_toggl i) <= 256)%nat -> (length (i_clone i) <= 256)%nat -> (length (i_kvsto i) <= 256)%nat -> (length (i_eref i) <= 256)%nat ->
  to_wire1 h i gid = Ok blob -> N.of_nat (length blob) <= 65536 -> (k < length blob)%nat ->
  forall dk iter ord c, decompress1 dk iter h ord c (firstn k blob) = Err StandardError.
Proof. intros. unfold decompress1. erewrite C83_cut; [reflexivity|eassumption..]. Qed.
Print Assumptions C83_decompressor.

(** Fewer than nine octets are refused. *)
Theorem C83_short : forall table h blob, d1_huffman table = Ok h -> is_bytes blob -> (length blob < 9)%nat -> from_wire1 h blob = Err StandardError.
Proof. intros table h blob E. exact (from_wire1_short h (d1_full table h E) blob). Qed.
Print Assumptions C83_short.

(** The message of C42 with its 54 octets: all 54 cuts, and three more octets. *)
Example C83_nontrivial : fits c42_sample /\
  match d1_huffman d1_request_table with
  | Ok h => match to_wire1 h c42_sample 7 with
            | Ok blob => length blob = 54%nat /\ map (fun k => from_wire1 h (firstn k blob)) (seq 0 54) = repeat (Err StandardError) 54 /\
                (from_wire1 h (blob ++ [6; 0; 0]) = from_wire1 h blob) /\ from_wire1 h blob <> Err StandardError
            | Err _ => False
            end
  | Err _ => False
  end.
Proof. split; [exact (proj1 C42_nontrivial)|]. vm_compute. repeat split; try reflexivity. discriminate. Qed.
