(** * Properties C16 and C17: bit buckets. *)
From Coq Require Import List NArith Bool Arith Lia.
From Verif Require Import PyBase NBits Bits BB_Model BB_Spec BB_Proofs.
Import ListNotations.
Open Scope N_scope.
Open Scope py_scope.

(** ** Programs over a bit bucket *)

Inductive mop := MStore (octets : list N) (nbits : nat) | MPad | MAdvance | MGet (nbits : nat).

(** Callers pass as many octets as the bits need. *)
Definition mop_ok (o : mop) : Prop :=
  match o with MStore s n => is_bytes s /\ (n <= 8 * length s)%nat /\ (8 * length s < n + 8)%nat | _ => True end.

(** What the operation asks of a bit queue: the [n] most significant bits. *)
Definition as_bits (o : mop) : bop :=
  match o with
  | MStore s n => OStore (firstn n (bits_of_bytes s))
  | MPad => OPad | MAdvance => OAdvance | MGet n => OGet n
  end.

(** Running the methods.  An over-read raises StandardError, which the caller
    may catch; any other exception ends the run. *)
Fixpoint bb_run (b : bb) (ops : list mop) : res (list (option (list N)) * bb) :=
  match ops with
  | [] => Ok ([], b)
  | MStore s n :: r => let* b' := bb_store b s n in bb_run b' r
  | MPad :: r => bb_run (bb_pad b) r
  | MAdvance :: r => bb_run (bb_advance b) r
  | MGet n :: r =>
      match bb_get b n with
      | Ok (x, b') => let* (a, b'') := bb_run b' r in Ok (Some x :: a, b'')
      | Err StandardError => let* (a, b'') := bb_run b r in Ok (None :: a, b'')
      | Err e => Err e
      end
  end.

Fixpoint q_after (q : bitq) (ops : list bop) : bitq :=
  match ops with
  | [] => q
  | OStore l :: r => q_after (q_store q l) r
  | OPad :: r => q_after (q_pad q) r
  | OAdvance :: r => q_after (q_advance q) r
  | OGet n :: r => match q_get q n with Some (_, q') => q_after q' r | None => q_after q r end
  end.

Lemma ok_bytes_for s n : mop_ok (MStore s n) -> length s = bytes_for n.
Proof.
  intros (_ & H1 & H2). unfold bytes_for. apply Nat.div_unique with (r := (n + 7 - 8 * length s)%nat); lia.
Qed.

Lemma run_ok ops : forall b q, Forall mop_ok ops -> rep b q ->
  exists b', bb_run b ops = Ok (map (option_map bytes_of_bits) (q_run q (map as_bits ops)), b') /\ rep b' (q_after q (map as_bits ops)).
Proof.
  induction ops as [|o ops IH]; intros b q HF Hr; [exists b; auto|]. inversion HF as [|? ? Ho HF']; subst.
  destruct o as [s n| | |n]; cbn [bb_run map as_bits q_run q_after].
  - destruct (store_ok b q s n Hr) as (b1 & E1 & H1); [apply Ho|now apply ok_bytes_for|]. rewrite E1. cbn [bind]. now apply IH.
  - apply IH; [exact HF'|now apply pad_ok].
  - apply IH; [exact HF'|now apply advance_ok].
  - pose proof (get_ok b q n Hr) as G. destruct (q_get q n) as [[l q']|].
    + destruct G as (b1 & E1 & H1). rewrite E1. destruct (IH b1 q' HF' H1) as (b2 & E2 & H2). rewrite E2. exists b2. auto.
    + rewrite G. destruct (IH b q HF' Hr) as (b2 & E2 & H2). rewrite E2. exists b2. auto.
Qed.

(** ** C16: whatever is done to a bucket, it answers as a bit queue does; the
    store's own check never raises (the run is [Ok]). *)
Theorem C16_bucket_is_bit_queue : forall ops, Forall mop_ok ops ->
  exists b, bb_run bb_new ops = Ok (map (option_map bytes_of_bits) (q_run q_new (map as_bits ops)), b) /\
    bb_num b = length (q_bits (q_after q_new (map as_bits ops))).
Proof.
  intros ops HF. destruct (run_ok ops bb_new q_new HF rep_new) as (b & E & H). exists b. split; [exact E|]. now apply rep_num.
Qed.
Print Assumptions C16_bucket_is_bit_queue.

(** *** In particular it is first in, first out *)

Lemma q_run_write w : Forall is_write w -> forall q r, q_run q (w ++ r) = q_run (q_after q w) r.
Proof. induction 1 as [|o w Ho _ IH]; intros q r; [reflexivity|]. destruct o; cbn [is_write] in Ho; try tauto; cbn [app q_run q_after]; apply IH. Qed.

Lemma q_after_pos w : Forall is_write w -> forall q, q_pos (q_after q w) = q_pos q.
Proof. induction 1 as [|o w Ho _ IH]; intros q; [reflexivity|]. destruct o; cbn [is_write] in Ho; try tauto; cbn [q_after]; rewrite IH; reflexivity. Qed.

Lemma q_after_bits w : Forall is_write w -> forall q, exists l, q_bits (q_after q w) = q_bits q ++ l.
Proof.
  induction 1 as [|o w Ho _ IH]; intros q; [exists []; now rewrite app_nil_r|]. destruct o as [l| | |]; cbn [is_write] in Ho; try tauto; cbn [q_after].
  - destruct (IH (q_store q l)) as (r & E). exists (l ++ r). rewrite E. cbn [q_store q_bits]. now rewrite app_assoc.
  - destruct (IH (q_pad q)) as (r & E). eexists. rewrite E. cbn [q_pad q_bits]. rewrite <- app_assoc. reflexivity.
Qed.

Lemma q_mirror w : Forall is_write w -> forall q Q, q_pos Q = length (q_bits q) -> q_bits Q = q_bits (q_after q w) ->
  q_run Q (map mirror w) = map Some (stored w).
Proof.
  induction 1 as [|o w Ho Hw IH]; intros q Q Hp Hb; [reflexivity|]. destruct o as [l| | |]; cbn [is_write] in Ho; try tauto; cbn [map mirror stored q_run q_after] in *.
  - destruct (q_after_bits w Hw (q_store q l)) as (r & E). cbn [q_store q_bits] in E. unfold q_get. rewrite Hp, Hb, E, !app_length.
    destruct (Nat.leb_spec (length (q_bits q) + length l) (length (q_bits q) + length l + length r)); [|lia].
    rewrite skipn_app, skipn_app. rewrite skipn_all2 by (rewrite ?app_length; lia). rewrite Nat.sub_diag.
    cbn [app skipn]. rewrite app_length. replace (length (q_bits q) - (length (q_bits q) + length l))%nat with 0%nat by lia. cbn [skipn].
    rewrite firstn_app, Nat.sub_diag, firstn_O, app_nil_r, firstn_all. f_equal.
    apply (IH (q_store q l)); cbn [q_pos q_bits q_store]; [now rewrite app_length|now rewrite E].
  - apply (IH (q_pad q)); cbn [q_pos q_bits q_pad q_advance]; [|exact Hb]. rewrite Hp, app_length, repeat_length. reflexivity.
Qed.

Definition m_mirror (o : mop) : mop := match o with MStore _ n => MGet n | MPad => MAdvance | o => o end.
Definition m_is_write (o : mop) : Prop := match o with MStore _ _ | MPad => True | _ => False end.
(** The bits of each store. *)
Fixpoint m_stored (w : list mop) : list (list bool) :=
  match w with [] => [] | MStore s n :: r => firstn n (bits_of_bytes s) :: m_stored r | _ :: r => m_stored r end.

Theorem C16_first_in_first_out : forall w, Forall mop_ok w -> Forall m_is_write w ->
  exists b, bb_run bb_new (w ++ map m_mirror w) = Ok (map (fun l => Some (bytes_of_bits l)) (m_stored w), b) /\
    (bb_num b = 8 * bb_ibyte b + bb_iboff b)%nat.
Proof.
  intros w Hok Hw.
  assert (Hok2 : Forall mop_ok (w ++ map m_mirror w)).
  { apply Forall_app. split; [exact Hok|]. clear -Hw. induction Hw as [|o w Ho _ IH]; [constructor|]. constructor; [|exact IH]. destruct o; exact I || (cbn in Ho; tauto). }
  destruct (run_ok _ bb_new q_new Hok2 rep_new) as (b & E & H). exists b.
  assert (Hbw : Forall is_write (map as_bits w)).
  { clear -Hw. induction Hw as [|o w Ho _ IH]; [constructor|]. constructor; [|exact IH]. destruct o; exact I || (cbn in Ho; tauto). }
  assert (Em : map as_bits (map m_mirror w) = map mirror (map as_bits w)).
  { clear -Hok Hw. induction Hok as [|o w Ho _ IH]; [reflexivity|]. inversion Hw; subst. cbn [map]. rewrite IH by assumption. f_equal.
    destruct o as [s n| | |]; try reflexivity. cbn. f_equal. destruct Ho as (_ & Hlen & _). rewrite firstn_length, bits_of_bytes_length. lia. }
  assert (Es : stored (map as_bits w) = m_stored w).
  { clear -Hw. induction Hw as [|o w Ho _ IH]; [reflexivity|]. destruct o; cbn in *; try tauto; now rewrite IH. }
  split.
  - rewrite E. do 2 f_equal. rewrite map_app, Em, q_run_write by exact Hbw.
    rewrite (q_mirror _ Hbw q_new (q_after q_new (map as_bits w))); [|rewrite q_after_pos by exact Hbw; reflexivity|reflexivity].
    rewrite Es, map_map. reflexivity.
  - pose proof H as (_ & _ & _ & Hp & _). rewrite <- Hp, (rep_num _ _ H). rewrite map_app, Em.
    clear -Hbw. set (bw := map as_bits w) in *. clearbody bw.
    assert (G : forall w, Forall is_write w -> forall q Q, q_pos Q = length (q_bits q) -> q_bits Q = q_bits (q_after q w) ->
       length (q_bits (q_after Q (map mirror w))) = q_pos (q_after Q (map mirror w))).
    { clear. induction 1 as [|o w Ho Hw IH]; intros q Q Hp Hb; [cbn [map q_after] in *; rewrite Hp, Hb; reflexivity|].
      destruct o as [l| | |]; cbn [is_write] in Ho; try tauto; cbn [map mirror q_after] in *.
      - destruct (q_after_bits w Hw (q_store q l)) as (r & E). cbn [q_store q_bits] in E. unfold q_get. rewrite Hp, Hb, E, !app_length.
        destruct (Nat.leb_spec (length (q_bits q) + length l) (length (q_bits q) + length l + length r)); [|lia].
        apply (IH (q_store q l)); cbn [q_pos q_bits q_store]; [now rewrite app_length|now rewrite E].
      - apply (IH (q_pad q)); cbn [q_pos q_bits q_pad q_advance]; [|exact Hb]. rewrite Hp, app_length, repeat_length. reflexivity. }
    assert (EA : forall w q r, Forall is_write w -> q_after q (w ++ r) = q_after (q_after q w) r).
    { clear. intros w q r Hw. revert q. induction Hw as [|o w Ho _ IH]; intros q; [reflexivity|]. destruct o; cbn [is_write] in Ho; try tauto; cbn [app q_after]; apply IH. }
    rewrite EA by exact Hbw. apply (G bw Hbw q_new); [rewrite q_after_pos by exact Hbw; reflexivity|reflexivity].
Qed.
Print Assumptions C16_first_in_first_out.

(** Thirteen bits, a pad, three bits, twenty-one bits: all unaligned cases. *)
Example C16_example :
  let w := [MStore [0xab; 0xff] 13; MStore [0xff] 3; MStore [0xff] 1; MPad; MStore [0x5f] 3; MStore [1;2;3] 21] in
  Forall mop_ok w /\ Forall m_is_write w /\
  exists b, bb_run bb_new (w ++ map m_mirror w) =
    Ok ([Some [0xab; 0xf8]; Some [0xe0]; Some [0x80]; Some [0x40]; Some [1; 2; 0]], b).
Proof. cbn zeta. repeat split; try (repeat constructor; vm_compute; discriminate || lia). eexists. vm_compute. reflexivity. Qed.

(** Reads before writes are refused, not invented. *)
Example C16_overread : exists b, bb_run bb_new [MStore [0xab] 5; MGet 6; MGet 5; MGet 0] = Ok ([None; Some [0xa8]; Some []], b).
Proof. eexists. vm_compute. reflexivity. Qed.

(** ** C17: fixed-width stores.  After any operations that leave everything read
    (so: at every alignment), storing and reading gives the value back. *)
Definition at_end (b : bb) : Prop := (bb_num b = 8 * bb_ibyte b + bb_iboff b)%nat.

Section Fixed.
  Variables (ops : list mop) (a : list (option (list N))) (b : bb).
  Hypothesis (HF : Forall mop_ok ops) (Hrun : bb_run bb_new ops = Ok (a, b)) (Hend : at_end b).

  Lemma fixed_rep : exists q, rep b q /\ q_pos q = length (q_bits q).
  Proof.
    destruct (run_ok ops bb_new q_new HF rep_new) as (b' & E & H). assert (b' = b) by congruence. subst b'.
    eexists. split; [exact H|]. rewrite <- (rep_num _ _ H). rewrite Hend. apply H.
  Qed.

  Lemma store_then_get s n : is_bytes s -> length s = bytes_for n -> (n <= 8 * length s)%nat ->
    exists b1 b2, bb_store b s n = Ok b1 /\ bb_get b1 n = Ok (bytes_of_bits (firstn n (bits_of_bytes s)), b2) /\ at_end b2.
  Proof.
    intros Hs Hl Hn. destruct fixed_rep as (q & Hr & Hq). destruct (store_ok b q s n Hr Hs Hl) as (b1 & E1 & H1).
    pose proof (get_ok b1 _ n H1) as G. unfold q_get in G. cbn [q_store q_pos q_bits] in G. rewrite app_length, firstn_length, bits_of_bytes_length, Hq in G.
    destruct (Nat.leb_spec (length (q_bits q) + n) (length (q_bits q) + Nat.min n (8 * length s))); [|lia].
    destruct G as (b2 & E2 & H2). exists b1, b2. split; [exact E1|]. rewrite E2. split.
    - do 3 f_equal. rewrite skipn_app, Nat.sub_diag, skipn_all. cbn [app skipn]. rewrite firstn_firstn. f_equal. lia.
    - unfold at_end. rewrite (rep_num _ _ H2). destruct H2 as (_ & _ & _ & Hp & _). rewrite <- Hp. cbn [q_pos q_bits]. rewrite app_length, firstn_length, bits_of_bytes_length. lia.
  Qed.
End Fixed.

Lemma is_bytes_shift4 v : N.shiftl (N.land v 15) 4 < 256.
Proof.
  change 15 with (N.ones 4). rewrite N.land_ones, N.shiftl_mul_pow2. change (2 ^ 4) with 16. pose proof (N.mod_upper_bound v 16). lia.
Qed.

Lemma bytes_of_bits_octets s : is_bytes s -> bytes_of_bits (firstn (8 * length s) (bits_of_bytes s)) = s.
Proof. intros H. rewrite firstn_all2 by (rewrite bits_of_bytes_length; lia). now apply bytes_of_bits_of_bytes. Qed.

Theorem C17_fixed_width_stores : forall ops a b v, Forall mop_ok ops -> bb_run bb_new ops = Ok (a, b) -> at_end b ->
  (v < 2 ^ 4 -> exists b1 b2, bb_store4 b v = Ok b1 /\ bb_get4 b1 = Ok (v, b2)) /\
  (v < 2 ^ 8 -> exists b1 b2, bb_store8 b v = Ok b1 /\ bb_get8 b1 = Ok (v, b2)) /\
  (v < 2 ^ 16 -> exists b1 b2, bb_store16 b v = Ok b1 /\ bb_get16 b1 = Ok (v, b2)) /\
  (v < 2 ^ 32 -> exists b1 b2, bb_store32 b v = Ok b1 /\ bb_get32 b1 = Ok (v, b2)).
Proof.
  intros ops a b v HF Hrun Hend. repeat split; intros Hv.
  - destruct (store_then_get ops a b HF Hrun Hend [N.shiftl (N.land v 15) 4] 4) as (b1 & b2 & E1 & E2 & _); [repeat constructor; apply is_bytes_shift4|reflexivity|cbn; lia|].
    exists b1, b2. split; [exact E1|]. unfold bb_get4. rewrite E2. cbn [bind].
    assert (Hc : In v (map N.of_nat (seq 0 16))) by (apply in_map_iff; exists (N.to_nat v); split; [lia|apply in_seq; lia]).
    assert (G : forallb (fun v => match pynth (bytes_of_bits (firstn 4 (bits_of_bytes [N.shiftl (N.land v 15) 4]))) 0 with Ok x => N.shiftr x 4 =? v | _ => false end) (map N.of_nat (seq 0 16)) = true) by (vm_compute; reflexivity).
    rewrite forallb_forall in G. specialize (G v Hc). cbv beta in G. destruct (pynth _ 0) as [x|]; [|discriminate]. cbn [bind]. apply N.eqb_eq in G. now rewrite G.
  - assert (Ep : pack_B v = Ok [v]) by (unfold pack_B; destruct (N.ltb_spec v 256); [reflexivity|lia]).
    destruct (store_then_get ops a b HF Hrun Hend [v] 8) as (b1 & b2 & E1 & E2 & _); [repeat constructor; exact Hv|reflexivity|cbn; lia|].
    exists b1, b2. unfold bb_store8. rewrite Ep. split; [exact E1|]. unfold bb_get8. rewrite E2. cbn [bind].
    change 8%nat with (8 * length [v])%nat. rewrite bytes_of_bits_octets by (repeat constructor; exact Hv). reflexivity.
  - pose proof (N.div_mod v 256 ltac:(lia)) as Hd. pose proof (N.mod_upper_bound v 256 ltac:(lia)) as Hm.
    assert (Hq : v / 256 < 256) by (apply N.div_lt_upper_bound; lia).
    set (s := [v / 256; v mod 256]) in *. assert (Hs : is_bytes s) by (repeat constructor; assumption).
    assert (Ep : pack_H v = Ok s).
    { unfold pack_H, s. destruct (N.ltb_spec v 65536) as [_|C]; [|exfalso; revert C; change 65536 with (2 ^ 16); lia].
      rewrite N.shiftr_div_pow2. change 255 with (N.ones 8). rewrite N.land_ones. reflexivity. }
    destruct (store_then_get ops a b HF Hrun Hend s 16) as (b1 & b2 & E1 & E2 & _); [exact Hs|reflexivity|cbn; lia|].
    exists b1, b2. unfold bb_store16. rewrite Ep. split; [exact E1|]. unfold bb_get16. rewrite E2. cbn [bind].
    change 16%nat with (8 * length s)%nat. rewrite bytes_of_bits_octets by exact Hs. cbn [s pynth nth_error bind]. do 2 f_equal. lia.
  - set (s := [N.shiftr v 24; N.land (N.shiftr v 16) 255; N.land (N.shiftr v 8) 255; N.land v 255]).
    assert (Ep : pack_L v = Ok s) by (unfold pack_L; destruct (N.ltb_spec v (2 ^ 32)); [reflexivity|lia]).
    assert (L : forall x, N.land x 255 = x mod 256) by (intros x; change 255 with (N.ones 8); now rewrite N.land_ones).
    assert (R : forall x n, N.shiftr x n = x / 2 ^ n) by (intros; apply N.shiftr_div_pow2).
    assert (Hs : is_bytes s).
    { unfold s. repeat constructor; rewrite ?L; try apply N.mod_upper_bound; try lia. rewrite R. apply N.div_lt_upper_bound; [cbv; discriminate|]. exact Hv. }
    destruct (store_then_get ops a b HF Hrun Hend s 32) as (b1 & b2 & E1 & E2 & _); [exact Hs|reflexivity|cbn; lia|].
    exists b1, b2. unfold bb_store32. rewrite Ep. split; [exact E1|]. unfold bb_get32. rewrite E2. cbn [bind].
    change 32%nat with (8 * length s)%nat. rewrite bytes_of_bits_octets by exact Hs. cbn [s pynth nth_error bind]. do 2 f_equal.
    rewrite !L, !R. change (2 ^ 24) with (2 ^ 8 * (2 ^ 8 * 2 ^ 8)). change (2 ^ 16) with (2 ^ 8 * 2 ^ 8). change (2 ^ 8) with 256.
    rewrite <- !N.div_div by lia. set (v1 := v / 256). set (v2 := v1 / 256). set (v3 := v2 / 256).
    pose proof (N.div_mod v 256 ltac:(lia)). pose proof (N.div_mod v1 256 ltac:(lia)). pose proof (N.div_mod v2 256 ltac:(lia)).
    fold v1 in H. fold v2 in H0. fold v3 in H1. lia.
Qed.
Print Assumptions C17_fixed_width_stores.

(** A single bit: the most significant one of the octet given. *)
Theorem C17_single_bits : forall ops a b (bit : bool) low, Forall mop_ok ops -> bb_run bb_new ops = Ok (a, b) -> at_end b -> low < 128 ->
  exists b1 b2, bb_store b [(if bit then 128 else 0) + low] 1 = Ok b1 /\ bb_get1 b1 = Ok (if bit then 1 else 0, b2) /\ at_end b2.
Proof.
  intros ops a b bit low HF Hrun Hend Hl. set (v := (if bit then 128 else 0) + low). assert (Hv : v < 256) by (unfold v; destruct bit; lia).
  destruct (store_then_get ops a b HF Hrun Hend [v] 1) as (b1 & b2 & E1 & E2 & E3); [repeat constructor; exact Hv|reflexivity|cbn; lia|].
  exists b1, b2. split; [exact E1|]. split; [|exact E3]. unfold bb_get1. rewrite E2. cbn [bind].
  assert (Hb : firstn 1 (bits_of_bytes [v]) = [bit]).
  { assert (Hc : In low (map N.of_nat (seq 0 128))) by (apply in_map_iff; exists (N.to_nat low); split; [lia|apply in_seq; lia]).
    assert (G : forallb (fun l => match firstn 1 (bits_of_bytes [128 + l]), firstn 1 (bits_of_bytes [l]) with [x], [y] => x && negb y | _, _ => false end) (map N.of_nat (seq 0 128)) = true) by (vm_compute; reflexivity).
    rewrite forallb_forall in G. specialize (G low Hc). cbv beta in G. unfold v. destruct bit; [|change (0 + low) with low];
      destruct (firstn 1 (bits_of_bytes [128 + low])) as [|x [|? ?]], (firstn 1 (bits_of_bytes [low])) as [|y [|? ?]]; try discriminate;
      destruct x, y; try discriminate; reflexivity. }
  rewrite Hb. destruct bit; reflexivity.
Qed.
Print Assumptions C17_single_bits.

Example C17_example :
  match bb_run bb_new [MStore [0xe0] 3; MGet 3] with
  | Ok (_, b) => at_end b /\ (let* b1 := bb_store16 b 54321 in let* (v, _) := bb_get16 b1 in Ok v) = Ok 54321
  | Err _ => False
  end.
Proof. vm_compute. split; reflexivity. Qed.
Example C17_single_bits_example :
  match bb_run bb_new [MStore [0xe0] 3; MGet 3] with
  | Ok (_, b) => at_end b /\ (let* b1 := bb_store b [200] 1 in let* (v, _) := bb_get1 b1 in Ok v) = Ok 1
  | Err _ => False
  end.
Proof. vm_compute. split; reflexivity. Qed.

(** *** The 22-bit store writes thirty bits, at every alignment, and 22 bits
    read back are the value divided by 1024. *)
Lemma store22_is_30 b s : length s = 4%nat -> bb_store b s 22 = bb_store b s 30.
Proof.
  intros Hl. unfold bb_store. destruct s as [|c s]; [discriminate|].
  change (22 mod 8)%nat with 6%nat. change (30 mod 8)%nat with 6%nat. cbn [Nat.eqb].
  replace ((bb_boff b + 30) mod 8)%nat with ((bb_boff b + 22) mod 8)%nat; [reflexivity|].
  replace (bb_boff b + 30)%nat with (bb_boff b + 22 + 1 * 8)%nat by lia. rewrite Nat.mod_add by lia. reflexivity.
Qed.

Theorem C17_store22_writes_30_bits : forall ops a b v, Forall mop_ok ops -> bb_run bb_new ops = Ok (a, b) -> v < 2 ^ 22 ->
  exists b1, bb_store22 b v = Ok b1 /\ (bb_num b1 = bb_num b + 30)%nat.
Proof.
  intros ops a b v HF Hrun Hv. destruct (run_ok ops bb_new q_new HF rep_new) as (b' & E & Hr). assert (b' = b) by congruence. subst b'.
  assert (Hv2 : v < 2 ^ 32) by (eapply N.lt_le_trans; [exact Hv|vm_compute; discriminate]).
  unfold bb_store22, pack_L. destruct (N.ltb_spec v (2 ^ 32)); [|lia]. cbn [bind]. rewrite store22_is_30 by reflexivity.
  assert (L : forall x, N.land x 255 < 256) by (intros x; change 255 with (N.ones 8); rewrite N.land_ones; apply N.mod_upper_bound; cbv; discriminate).
  set (s := [N.shiftr v 24; N.land (N.shiftr v 16) 255; N.land (N.shiftr v 8) 255; N.land v 255]).
  assert (Hs : is_bytes s).
  { unfold s. repeat constructor; try apply L. rewrite N.shiftr_div_pow2. apply N.div_lt_upper_bound; [cbv; discriminate|]. exact Hv2. }
  destruct (store_ok b _ s 30 Hr Hs eq_refl) as (b1 & E1 & H1). exists b1. split; [exact E1|].
  rewrite (rep_num _ _ H1), (rep_num _ _ Hr). cbn [q_store q_bits]. rewrite app_length, firstn_length, bits_of_bytes_length. reflexivity.
Qed.
Print Assumptions C17_store22_writes_30_bits.

Theorem C17_store22_refuted : exists v b1 r b2, v < 2 ^ 22 /\ bb_store22 bb_new v = Ok b1 /\
  bb_get b1 22 = Ok (r, b2) /\ val_of (firstn 22 (bits_of_bytes r)) = v / 1024 /\ v / 1024 <> v.
Proof.
  exists 4097. do 3 eexists. split; [vm_compute; reflexivity|]. split; [vm_compute; reflexivity|]. split; [vm_compute; reflexivity|].
  split; [vm_compute; reflexivity|vm_compute; discriminate].
Qed.
Print Assumptions C17_store22_refuted.
