(** * Properties C66, C67: delta2's parser given octets that no compressor made,
      and messages that were cut or extended on the way. *)
From Coq Require Import List NArith ZArith Bool Arith Lia ZifyN ZifyNat.
From Verif Require Import PyBase NBits Bits BB_Read D2Huff_Model D2Huff_Proofs D2Huff_Dict Prop_D2Huff
  D2Wire_Model D2Wire_Proofs D2Wire_Frame Prop_D2Wire D2Hostile_Proofs.
Import ListNotations.
Open Scope N_scope.
Open Scope py_scope.

(** ** C66: arbitrary octets *)

(** The number of octets of header text in a list of operations. *)
Fixpoint text (ops : list op) : nat :=
  match ops with
  | [] => 0
  | OToggl _ _ :: r | OTrang _ _ _ :: r => text r
  | OClone _ _ v :: r => length v + text r
  | OKvsto _ k v :: r => length k + length v + text r
  end.

Lemma ops_cost_text ops : ops_cost ops = (length ops + text ops)%nat.
Proof. induction ops as [|o r IH]; [reflexivity|]. destruct o; cbn [ops_cost op_text text length]; lia. Qed.

Lemma coder_node h : coder h -> has_node h.
Proof. intros H. destruct (coder_good h H) as (ws & G & _). exact (g_node h ws G). Qed.

Lemma shipped_full t : t = d2_request_table \/ t = d2_response_table ->
  match new_huffman int_dict_order t with Ok h => full (h_tree h) = true | Err _ => False end.
Proof. intros [->| ->]; vm_compute; reflexivity. Qed.

(** Every octet string is parsed or refused with StandardError; what is parsed is
    no larger than the message and its index fields have the width of the
    configuration. *)
Theorem C66_hostile : forall t h w blob, t = d2_request_table \/ t = d2_response_table ->
  new_huffman int_dict_order t = Ok h -> is_bytes blob ->
  (exists gid ops, from_wire w h blob = Ok (gid, ops) /\ gid < 256 /\
     (72 + length ops + text ops <= 8 * length blob)%nat /\
     forall o, In o ops ->
       match o with
       | OToggl _ i | OClone _ i _ => index_fits w i
       | OTrang _ i s => index_fits w i /\ index_fits w s
       | OKvsto _ _ _ => True
       end) \/
  from_wire w h blob = Err StandardError.
Proof.
  intros t h w blob Ht E Hb. destruct (shipped_coder t Ht) as (h' & E' & Hc). assert (h' = h) by congruence. subst h'.
  pose proof (shipped_full t Ht) as F. rewrite E in F. pose proof (from_wire_total w h blob (coder_node h Hc) F Hb) as H.
  destruct (from_wire w h blob) as [[gid ops]|e]; [left|right; now rewrite H]. destruct H as (H1 & H2 & H3). rewrite ops_cost_text in H2.
  exists gid, ops. split; [reflexivity|]. split; [exact H1|]. split; [lia|]. intros o Ho. rewrite Forall_forall in H3. specialize (H3 o Ho).
  assert (X : forall i, idx_range w i -> index_fits w i) by (intros i; unfold idx_range, index_fits; change (2 ^ 8)%Z with 256%Z; change (2 ^ 16)%Z with 65536%Z; destruct w; lia).
  destruct o; cbn [op_fields] in H3; [auto|destruct H3; split; auto|auto|exact I].
Qed.
Print Assumptions C66_hostile.

(** Octets with every outcome: seven octets, a frame without the last-frame flag
    and nothing after it, an unknown opcode, text that never ends, and a message
    that is understood. *)
Definition hostile_messages : list str :=
  [ [0; 1; 8; 1; 0; 0; 0];
    [0; 2; 8; 0; 128; 0; 0; 1; 7; 0; 5];
    [0; 9; 8; 1; 128; 0; 0; 1; 7; 255; 1; 2; 3];
    [0; 40; 8; 1; 128; 0; 0; 1; 7; 64; 3; 3; 3];
    [0; 16; 8; 1; 128; 0; 0; 1; 7; 0; 5] ].
Example C66_nontrivial : Forall is_bytes hostile_messages /\
  match new_huffman int_dict_order d2_request_table with
  | Ok h => map (from_wire Int8 h) hostile_messages =
      [Err StandardError; Err StandardError; Ok (7, []); Ok (7, []); Ok (7, [OToggl false 5%Z])]
  | Err _ => False
  end.
Proof. split; [repeat constructor|vm_compute; reflexivity]. Qed.

(** ** C67: messages cut short or extended *)

(** Losing the end of a message goes unnoticed as soon as the nine octets of the
    frame's head have arrived: a beginning of the operations is what comes out. *)
Theorem C67_cut : forall h w is gid blob k, coder h -> valid w is -> gid < 256 -> to_wire w h is gid = Ok blob ->
  (9 <= k <= length blob)%nat ->
  exists got lost, from_wire w h (firstn k blob) = Ok (gid, got) /\ flat_map snd is = got ++ lost.
Proof.
  intros h w is gid blob k Hh Hv Hg E Hk. destruct (C22_prefix h w is gid blob Hh Hv Hg E) as (got & lost & Es & Ed).
  destruct (coder_good h Hh) as (ws & G & He). destruct (to_wire_ok h ws G He w is gid (valid_kind w is Hv) Hg) as (x & Hx & E' & _).
  destruct (C21_serialised h w is gid Hh Hv Hg) as (blob' & E2 & Hb & _). assert (blob' = blob) by congruence. subst blob'.
  assert (N3 : nth 3 blob 0 <> 0) by (assert (Z : blob = _) by (rewrite E in E'; injection E' as Z; exact Z); rewrite Z; cbn [hdr o16 o32 app nth]; discriminate).
  destruct (from_wire_cut w h blob k (coder_node h Hh) Hb Hk N3) as (got1 & lost1 & E3 & E4).
  rewrite Ed in E4. injection E4 as E4 E5. exists got1, (lost1 ++ lost). rewrite E3, <- E4. split; [reflexivity|]. rewrite Es, E5. now rewrite app_assoc.
Qed.
Print Assumptions C67_cut.

(** Fewer than nine octets are refused. *)
Theorem C67_short : forall h w blob, is_bytes blob -> (length blob < 9)%nat -> from_wire w h blob = Err StandardError.
Proof. intros. now apply from_wire_short. Qed.
Print Assumptions C67_short.

(** Octets after a message are ignored. *)
Theorem C67_extended : forall h w is gid blob x, coder h -> valid w is -> gid < 256 -> to_wire w h is gid = Ok blob -> is_bytes x ->
  from_wire w h (blob ++ x) = from_wire w h blob.
Proof.
  intros h w is gid blob x Hh Hv Hg E Hx. destruct (coder_good h Hh) as (ws & G & He). pose proof (valid_kind w is Hv) as Hk.
  destruct (to_wire_ok h ws G He w is gid Hk Hg) as (y & Hy & E' & _).
  match type of E' with _ = Ok ?B => assert (Z : blob = B) by congruence end. rewrite Z. clear Z.
  rewrite (from_wire_any h ws G He w is gid y Hk Hg Hy), <- !app_assoc.
  rewrite (from_wire_any h ws G He w is gid (y ++ x) Hk Hg); [reflexivity|]. now apply Forall_app.
Qed.
Print Assumptions C67_extended.

(** So a cut message is not refused: whatever the coder and the width, a message
    exists that loses operations this way. *)
Theorem C67_truncation_refuted : forall h w, coder h ->
  exists is blob k, valid w is /\ to_wire w h is 1 = Ok blob /\ (k < length blob)%nat /\
  exists got, from_wire w h (firstn k blob) = Ok (1, got) /\ got <> flat_map snd is.
Proof.
  intros h w Hh. set (is := [((Toggl, false), [OToggl false 3%Z])]).
  assert (Hv : valid w is).
  { intros c ops [H|[]] o Ho. injection H as <- <-. destruct Ho as [<-|[]]. split; [reflexivity|]. unfold index_fits. destruct w; lia. }
  exists is, (match w with Int8 => [0; 2; 8; 1; 128; 0; 255; 255; 1; 0; 3] | Int16 => [0; 3; 8; 1; 128; 0; 255; 255; 1; 0; 0; 3] | VarInt => [0; 2; 8; 1; 128; 0; 255; 255; 1; 0; 48] end), 9%nat.
  split; [exact Hv|]. clear Hv. unfold is. split; [destruct w; vm_compute; reflexivity|]. split; [destruct w; cbn; lia|].
  exists []. split; [destruct w; vm_compute; reflexivity|discriminate].
Qed.
Print Assumptions C67_truncation_refuted.

(** The stream of C21 with its 103 octets: how many operations come out
    when some of them arrive (99 for an exception), and with three more octets. *)
Example C67_nontrivial :
  match new_huffman int_dict_order (with_symbols small_counts) with
  | Ok h => match to_wire VarInt h some_instructions 200 with
            | Ok blob => map (fun k => match from_wire VarInt h (firstn k blob) with Ok (g, ops) => (N.to_nat g, length ops) | Err _ => (0, 99)%nat end)
                           [8; 9; 12; 40; 70; 100; 102; 103]%nat =
                         [(0, 99); (200, 0); (200, 3); (200, 19); (200, 33); (200, 40); (200, 40); (200, 41)]%nat
                         /\ from_wire VarInt h (blob ++ [0; 5; 255]) = Ok (200, flat_map snd some_instructions)
            | Err _ => False
            end
  | Err _ => False
  end.
Proof. vm_compute. split; reflexivity. Qed.
