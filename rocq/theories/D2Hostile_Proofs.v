(** * delta2's parser on arbitrary octets.

    Every reader is described by what it does to a bucket of which the bits [A]
    have been read and the bits [R] are left: it takes a beginning [u] of [R], or
    it raises; and it does the same on every bucket that goes on after [u] in
    another way. *)
From Coq Require Import List NArith ZArith Bool Arith Lia ZifyN ZifyNat.
From Verif Require Import PyBase NBits Bits BB_Model BB_Spec BB_Proofs BB_Read D2Huff_Model D2Huff_Proofs D2Wire_Model D2Wire_Proofs D2Wire_Frame.
Import ListNotations.
Open Scope N_scope.
Open Scope py_scope.

(** The bucket holds whole octets. *)
Definition whole (A R : list bool) : Prop := ((length A + length R) mod 8 = 0)%nat.

Lemma whole_step A u R : whole A (u ++ R) -> whole (A ++ u) R.
Proof. unfold whole. rewrite !app_length. now rewrite Nat.add_assoc. Qed.

(** A tree in which every sequence of bits leads to a symbol. *)
Fixpoint full (t : dtree) : bool :=
  match t with DNone => false | DLeaf _ => true | DNode l r => full l && full r end.

(** What a reader may raise. *)
Definition bad (t : dtree) (e : exn) : Prop := e = StandardError \/ (e = TypeError /\ full t = false).

(** [reads t f P]: [f] reads as described above; [P x u] relates what it returns
    to the bits it took. *)
Definition reads_at {X} (t : dtree) (f : bb -> res (X * bb)) (P : X -> list bool -> Prop) (b : bb) (A R : list bool) : Prop :=
  match f b with
  | Ok (x, b') => exists u R', R = u ++ R' /\ P x u /\ rd b' (A ++ u) R' /\
      forall c T, rd c A (u ++ T) -> exists c', f c = Ok (x, c') /\ rd c' (A ++ u) T
  | Err e => bad t e
  end.
Definition reads {X} (t : dtree) (f : bb -> res (X * bb)) (P : X -> list bool -> Prop) : Prop :=
  forall b A R, rd b A R -> whole A R -> reads_at t f P b A R.

Lemma reads_weaken {X} t (f : bb -> res (X * bb)) (P Q : X -> list bool -> Prop) :
  (forall x u, P x u -> Q x u) -> reads t f P -> reads t f Q.
Proof.
  intros H Hf b A R Hb Hw. specialize (Hf b A R Hb Hw). unfold reads_at in *. destruct (f b) as [[x b']|e]; [|exact Hf].
  destruct Hf as (u & R' & E & HP & Hb' & Hm). exists u, R'. auto.
Qed.

Lemma reads_bind {X Y} t (f : bb -> res (X * bb)) (g : X -> bb -> res (Y * bb)) (P : X -> list bool -> Prop) (Q : Y -> list bool -> Prop) :
  reads t f P -> (forall x, reads t (g x) (fun y v => forall u, P x u -> Q y (u ++ v))) ->
  reads t (fun b => let* (x, b) := f b in g x b) Q.
Proof.
  intros Hf Hg b A R Hb Hw. specialize (Hf b A R Hb Hw). unfold reads_at in *. destruct (f b) as [[x b1]|e]; cbn [bind]; [|exact Hf].
  destruct Hf as (u & R' & -> & HP & Hb1 & Hm). specialize (Hg x b1 (A ++ u) R' Hb1 (whole_step _ _ _ Hw)). unfold reads_at in Hg.
  destruct (g x b1) as [[y b2]|e]; [|exact Hg]. destruct Hg as (v & R2 & -> & HQ & Hb2 & Hm2).
  exists (u ++ v), R2. split; [apply app_assoc|]. split; [now apply HQ|]. rewrite app_assoc. split; [exact Hb2|].
  intros c T Hc. rewrite <- app_assoc in Hc. destruct (Hm c _ Hc) as (c1 & -> & Hc1). cbn [bind]. apply Hm2, Hc1.
Qed.

Lemma reads_map {X Y} t (f : bb -> res (X * bb)) (g : X -> Y) (P : X -> list bool -> Prop) (Q : Y -> list bool -> Prop) :
  reads t f P -> (forall x u, P x u -> Q (g x) u) -> reads t (fun b => let* (x, b) := f b in Ok (g x, b)) Q.
Proof.
  intros Hf Hg. apply (reads_bind t f (fun x b => Ok (g x, b)) P Q Hf). intros x b A R Hb _. unfold reads_at.
  exists [], R. split; [reflexivity|]. split; [intros u Hu; rewrite app_nil_r; auto|]. rewrite app_nil_r. split; [exact Hb|].
  intros c T Hc. eexists. split; [reflexivity|]. exact Hc.
Qed.

(** ** Fixed widths *)

Lemma split_bits {A} (R : list A) n : (n <= length R)%nat -> exists u R', R = u ++ R' /\ length u = n.
Proof.
  intros H. exists (firstn n R), (skipn n R). split; [symmetry; apply firstn_skipn|]. rewrite firstn_length. lia.
Qed.

Lemma reads_fixed {X} t n (f : list N -> res X) : (forall u, length u = n -> exists x, f (bytes_of_bits u) = Ok x) ->
  reads t (fun b => let* (r, b) := bb_get b n in let* x := f r in Ok (x, b)) (fun x u => length u = n /\ f (bytes_of_bits u) = Ok x).
Proof.
  intros Hf b A R Hb Hw. unfold reads_at. destruct (Nat.lt_ge_cases (length R) n) as [L|L].
  - rewrite (rd_get_short b A R n Hb L). cbn [bind]. now left.
  - destruct (split_bits R n L) as (u & R' & -> & Hu). destruct (rd_get b A u R' Hb) as (b1 & E & Hb1). rewrite Hu in E. rewrite E. cbn [bind].
    destruct (Hf u Hu) as (x & Ex). rewrite Ex. cbn [bind]. exists u, R'. split; [reflexivity|]. split; [now split|]. split; [exact Hb1|].
    intros c T Hc. destruct (rd_get c A u T Hc) as (c1 & Ec & Hc1). rewrite Hu in Ec. exists c1. rewrite Ec. cbn [bind]. rewrite Ex. cbn [bind]. now split.
Qed.

Lemma bytes_len u n : length u = (8 * n)%nat -> length (bytes_of_bits u) = n.
Proof. intros H. rewrite bytes_of_bits_len, H. unfold bytes_for. symmetry. apply Nat.div_unique with (r := 7%nat); lia. Qed.

Lemma reads_get4 t : reads t bb_get4 (fun v u => length u = 4%nat).
Proof.
  apply (reads_weaken t _ (fun x u => length u = 4%nat /\ (let* x := pynth (bytes_of_bits u) 0 in Ok (N.shiftr x 4)) = Ok x)); [tauto|].
  assert (E : forall b, bb_get4 b = let* (r, b) := bb_get b 4 in let* x := (let* x := pynth r 0 in Ok (N.shiftr x 4)) in Ok (x, b)).
  { intros b. unfold bb_get4. destruct (bb_get b 4) as [[r b1]|e]; cbn [bind]; [|reflexivity]. now destruct (pynth r 0). }
  intros b A R Hb Hw. unfold reads_at. rewrite E.
  pose proof (reads_fixed t 4 (fun r => let* x := pynth r 0 in Ok (N.shiftr x 4))) as H.
  assert (Hf : forall u, length u = 4%nat -> exists x, (let* x := pynth (bytes_of_bits u) 0 in Ok (N.shiftr x 4)) = Ok x).
  { intros u Hu. pose proof (bytes_of_bits_len u) as L. rewrite Hu in L. change (bytes_for 4) with 1%nat in L.
    destruct (bytes_of_bits u) as [|x [|]]; try discriminate. eexists. reflexivity. }
  specialize (H Hf b A R Hb Hw). unfold reads_at in H.
  destruct (let* (r, b0) := bb_get b 4 in _) as [[x b1]|e]; [|exact H].
  destruct H as (u & R' & E1 & HP & Hb1 & Hm). exists u, R'. repeat (split; [assumption|]). intros c T Hc. rewrite E. apply Hm, Hc.
Qed.

Lemma reads_get8 t : reads t bb_get8 (fun v u => length u = 8%nat /\ v < 256 /\ u = bits_of 8 v).
Proof.
  intros b A R Hb Hw. unfold reads_at. destruct (Nat.lt_ge_cases (length R) 8) as [L|L].
  - unfold bb_get8. rewrite (rd_get_short b A R 8 Hb L). cbn [bind]. now left.
  - destruct (split_bits R 8 L) as (u & R' & -> & Hu). pose proof (bytes_len u 1 Hu) as L1. destruct (bytes_of_bits_spec u) as [Eu Hby].
    destruct (bytes_of_bits u) as [|v [|]] eqn:Ev; try discriminate. inversion Hby as [|? ? Hv _]; subst.
    rewrite Hu in Eu. change (pad_len 8) with 0%nat in Eu. cbn [repeat] in Eu. rewrite app_nil_r in Eu. rewrite bob_one in Eu. subst u.
    destruct (rd_get8 b A R' v Hv Hb) as (b1 & -> & Hb1). exists (bits_of 8 v), R'. split; [reflexivity|].
    split; [now rewrite bits_of_length|]. split; [exact Hb1|]. intros c T Hc. apply (rd_get8 c A T v Hv Hc).
Qed.

Lemma reads_get16 t : reads t bb_get16 (fun v u => length u = 16%nat /\ v < 65536 /\ u = bits_of_bytes (o16 v)).
Proof.
  intros b A R Hb Hw. unfold reads_at. destruct (Nat.lt_ge_cases (length R) 16) as [L|L].
  - unfold bb_get16. rewrite (rd_get_short b A R 16 Hb L). cbn [bind]. now left.
  - destruct (split_bits R 16 L) as (u & R' & -> & Hu). pose proof (bytes_len u 2 Hu) as L1. destruct (bytes_of_bits_spec u) as [Eu Hby].
    destruct (bytes_of_bits u) as [|x [|y [|]]] eqn:Ev; try discriminate. inversion Hby as [|? ? Hx Hby']; subst. inversion Hby' as [|? ? Hy _]; subst.
    rewrite Hu in Eu. change (pad_len 16) with 0%nat in Eu. cbn [repeat] in Eu. rewrite app_nil_r in Eu. subst u.
    assert (Eo : [x; y] = o16 (x * 256 + y)) by (unfold o16; f_equal; [|f_equal]; lia). rewrite Eo in *.
    destruct (rd_get16 b A R' (x * 256 + y) ltac:(lia) Hb) as (b1 & -> & Hb1). eexists. exists R'. split; [reflexivity|].
    split; [split; [|split; [lia|reflexivity]]; exact Hu|]. split; [exact Hb1|]. intros c T Hc. apply (rd_get16 c A T (x * 256 + y) ltac:(lia) Hc).
Qed.

Lemma reads_get32 t : reads t bb_get32 (fun v u => length u = 32%nat).
Proof.
  intros b A R Hb Hw. unfold reads_at. destruct (Nat.lt_ge_cases (length R) 32) as [L|L].
  - unfold bb_get32. rewrite (rd_get_short b A R 32 Hb L). cbn [bind]. now left.
  - destruct (split_bits R 32 L) as (u & R' & -> & Hu). pose proof (bytes_len u 4 Hu) as L1.
    destruct (rd_get b A u R' Hb) as (b1 & E & Hb1). rewrite Hu in E. unfold bb_get32. rewrite E. cbn [bind].
    destruct (bytes_of_bits u) as [|x [|y [|z [|q [|]]]]] eqn:Ev; try discriminate. unfold pynth. cbn [nth_error bind].
    exists u, R'. split; [reflexivity|]. split; [exact Hu|]. split; [exact Hb1|]. intros c T Hc.
    destruct (rd_get c A u T Hc) as (c1 & Ec & Hc1). rewrite Hu, Ev in Ec. exists c1. rewrite Ec. cbn [bind nth_error]. now split.
Qed.

(** ** Variable-length integers *)

Lemma varint_loop_reads t : forall fuel b A R n s v, rd b A R -> whole A R -> (length R < fuel)%nat ->
  match unpack_varint_loop fuel b n s v with
  | Ok (x, b') => exists u R', R = u ++ R' /\ rd b' (A ++ u) R' /\
      forall fuel2 c T, rd c A (u ++ T) -> (length (u ++ T) < fuel2)%nat ->
        exists c', unpack_varint_loop fuel2 c n s v = Ok (x, c') /\ rd c' (A ++ u) T
  | Err e => bad t e
  end.
Proof.
  induction fuel as [|f IH]; intros b A R n s v Hb Hw Hf; [lia|]. cbn [unpack_varint_loop].
  destruct (N.land n 8 =? 0) eqn:En.
  - exists [], R. split; [reflexivity|]. rewrite app_nil_r. split; [exact Hb|]. intros fuel2 c T Hc _. exists c. split; [|exact Hc].
    destruct fuel2; cbn [unpack_varint_loop]; now rewrite En.
  - pose proof (reads_get4 t b A R Hb Hw) as H4. unfold reads_at in H4. destruct (bb_get4 b) as [[m b1]|e]; cbn [bind]; [|exact H4].
    destruct H4 as (u & R' & -> & Hu & Hb1 & Hm). cbv zeta.
    specialize (IH b1 (A ++ u) R' m (s + 3) (v + N.shiftl (N.land m 7) (s + 3)) Hb1 (whole_step _ _ _ Hw)). rewrite app_length in Hf.
    specialize (IH ltac:(lia)). destruct (unpack_varint_loop f b1 m _ _) as [[x b2]|e]; [|exact IH].
    destruct IH as (u2 & R2 & -> & Hb2 & Hm2). exists (u ++ u2), R2. split; [apply app_assoc|]. rewrite app_assoc. split; [exact Hb2|].
    intros fuel2 c T Hc Hl. rewrite <- app_assoc in Hc, Hl. rewrite app_length in Hl. destruct fuel2 as [|f2]; [lia|]. cbn [unpack_varint_loop]. rewrite En.
    destruct (Hm c _ Hc) as (c1 & -> & Hc1). cbn [bind]. cbv zeta. apply Hm2; [exact Hc1|lia].
Qed.

Lemma reads_varint t : reads t unpack_varint (fun v u => (4 <= length u)%nat).
Proof.
  intros b A R Hb Hw. unfold reads_at, unpack_varint.
  pose proof (reads_get4 t b A R Hb Hw) as H4. unfold reads_at in H4. destruct (bb_get4 b) as [[val b1]|e]; cbn [bind]; [|exact H4].
  destruct H4 as (u & R' & -> & Hu & Hb1 & Hm). destruct (val <? 15) eqn:E15.
  - exists u, R'. split; [reflexivity|]. split; [lia|]. split; [exact Hb1|]. intros c T Hc. destruct (Hm c T Hc) as (c1 & -> & Hc1). cbn [bind]. rewrite E15. eauto.
  - pose proof (reads_get4 t b1 _ R' Hb1 (whole_step _ _ _ Hw)) as H4. unfold reads_at in H4. destruct (bb_get4 b1) as [[n b2]|e]; cbn [bind]; [|exact H4].
    destruct H4 as (u2 & R2 & -> & Hu2 & Hb2 & Hm2).
    assert (Hn : (length R2 < bb_num b2)%nat) by (rewrite (rd_num _ _ _ Hb2), !app_length; lia).
    pose proof (varint_loop_reads t (bb_num b2) b2 _ R2 n 0 (val + N.shiftl (N.land n 7) 0) Hb2 (whole_step _ _ _ (whole_step _ _ _ Hw)) Hn) as HL.
    destruct (unpack_varint_loop (bb_num b2) b2 n 0 _) as [[x b3]|e]; [|exact HL]. destruct HL as (u3 & R3 & -> & Hb3 & Hm3).
    exists (u ++ u2 ++ u3), R3. rewrite !app_assoc in *. split; [reflexivity|]. split; [rewrite !app_length; lia|]. split; [exact Hb3|].
    intros c T Hc. rewrite <- !app_assoc in Hc. destruct (Hm c _ Hc) as (c1 & -> & Hc1). cbn [bind]. rewrite E15.
    destruct (Hm2 c1 _ Hc1) as (c2 & -> & Hc2). cbn [bind]. apply Hm3; [exact Hc2|]. rewrite (rd_num _ _ _ Hc2), !app_length. lia.
Qed.

Definition idx_range (w : iwidth) (i : Z) : Prop := match w with Int8 => 0 <= i < 256 | Int16 => 0 <= i < 65536 | VarInt => 0 <= i end%Z.
Lemma reads_index t w : reads t (unpack_index w) (fun i u => idx_range w i /\ (4 <= length u)%nat).
Proof.
  unfold unpack_index. destruct w.
  - apply (reads_map t bb_get8 Z.of_N _ _ (reads_get8 t)). intros x u (H & Hx & _). cbn. lia.
  - apply (reads_map t bb_get16 Z.of_N _ _ (reads_get16 t)). intros x u (H & Hx & _). cbn. lia.
  - apply (reads_map t unpack_varint Z.of_N _ _ (reads_varint t)). intros x u H. cbn. lia.
Qed.

(** ** Strings *)

Lemma read_bit_reads t : reads t read_bit (fun x u => u = [x]).
Proof.
  intros b A R Hb Hw. unfold reads_at, read_bit. destruct R as [|x R].
  - rewrite (rd_get_short b A [] 1 Hb) by (cbn; lia). cbn [bind]. now left.
  - destruct (rd_bit1 b A R x Hb) as (r & b1 & -> & Er & Hb1). cbn [bind]. rewrite Er. cbn [bind].
    assert (Ex : negb (N.shiftr (val_of (x :: repeat false 7)) 7 =? 0) = x) by (destruct x; reflexivity). rewrite Ex.
    exists [x], R. split; [reflexivity|]. split; [reflexivity|]. split; [exact Hb1|]. intros c T Hc.
    destruct (rd_bit1 c A T x Hc) as (r' & c1 & -> & Er' & Hc1). cbn [bind]. rewrite Er'. cbn [bind]. rewrite Ex. eauto.
Qed.

Definition walks (t0 t : dtree) : Prop := forall b A R n, rd b A R -> whole A R ->
  match walk t b n with
  | Ok (x, b', n') => exists u R', R = u ++ R' /\ (match t with DNode _ _ => (1 <= length u)%nat | _ => True end) /\ rd b' (A ++ u) R' /\
      forall c T m, rd c A (u ++ T) -> exists c', walk t c m = Ok (x, c', m + length u)%nat /\ rd c' (A ++ u) T
  | Err e => bad t0 e
  end.
Lemma walk_reads t0 t : (full t = false -> full t0 = false) -> walks t0 t.
Proof.
  induction t as [|s|l IHl r IHr]; intros Hfull b A R n Hb Hw; cbn [walk].
  - right. split; [reflexivity|]. now apply Hfull.
  - exists [], R. split; [reflexivity|]. rewrite app_nil_r. split; [exact I|]. split; [exact Hb|].
    intros c T m Hc. exists c. split; [cbn [length]; now rewrite Nat.add_0_r|exact Hc].
  - pose proof (read_bit_reads t0 b A R Hb Hw) as H1. unfold reads_at in H1. destruct (read_bit b) as [[x b1]|e]; cbn [bind]; [|exact H1].
    destruct H1 as (u & R' & -> & Hu & Hb1 & Hm). subst u.
    assert (IH : walks t0 (if x then r else l)).
    { destruct x; [apply IHr|apply IHl]; intros C; apply Hfull; cbn [full]; rewrite C; [apply andb_false_r|reflexivity]. }
    specialize (IH b1 (A ++ [x]) R' (S n) Hb1 (whole_step _ _ _ Hw)). destruct (walk (if x then r else l) b1 (S n)) as [[[y b2] n2]|e]; [|exact IH].
    destruct IH as (u & R2 & -> & _ & Hb2 & Hm2). exists (x :: u), R2. split; [reflexivity|]. split; [cbn [length]; lia|].
    rewrite <- app_assoc in Hb2. split; [exact Hb2|]. intros c T m Hc. destruct (Hm c _ Hc) as (c1 & -> & Hc1). cbn [bind].
    destruct (Hm2 c1 T (S m) Hc1) as (c2 & -> & Hc2). exists c2. rewrite <- app_assoc in Hc2. split; [|exact Hc2]. do 2 f_equal. cbn [length]. lia.
Qed.

Lemma decode_loop_reads t : (exists l r, t = DNode l r) -> forall fuel b A R n out, rd b A R -> whole A R -> (length R < fuel)%nat ->
  match decode_loop fuel t true None b n out with
  | Ok (s, b', _) => exists u R' got, R = u ++ R' /\ s = out ++ got /\ (length got < length u)%nat /\ rd b' (A ++ u) R' /\
      forall fuel2 c T m, rd c A (u ++ T) -> (length (u ++ T) < fuel2)%nat ->
        exists c' m', decode_loop fuel2 t true None c m out = Ok (s, c', m') /\ rd c' (A ++ u) T
  | Err e => bad t e
  end.
Proof.
  intros (l & r & Et) fuel. induction fuel as [|f IH]; intros b A R n out Hb Hw Hf; [lia|]. cbn [decode_loop].
  pose proof (walk_reads t t (fun x => x) b A R n Hb Hw) as H1. destruct (walk t b n) as [[[x b1] n1]|e]; cbn [bind]; [|exact H1].
  destruct H1 as (u & R' & -> & Hu & Hb1 & Hm). assert (Hu1 : (1 <= length u)%nat) by (rewrite Et in Hu; exact Hu). clear Hu. cbn [andb]. destruct (x =? 256) eqn:Ex.
  - exists u, R', []. split; [reflexivity|]. split; [now rewrite app_nil_r|]. split; [cbn [length]; lia|]. split; [exact Hb1|].
    intros fuel2 c T m Hc Hl. destruct fuel2 as [|f2]; [lia|]. cbn [decode_loop]. destruct (Hm c T m Hc) as (c1 & -> & Hc1). cbn [bind andb]. rewrite Ex. eauto.
  - rewrite app_length in Hf. specialize (IH b1 _ R' n1 (out ++ [x]) Hb1 (whole_step _ _ _ Hw) ltac:(lia)).
    destruct (decode_loop f t true None b1 n1 (out ++ [x])) as [[[s b2] n2]|e]; [|exact IH].
    destruct IH as (u2 & R2 & got & -> & -> & Hg & Hb2 & Hm2). exists (u ++ u2), R2, (x :: got). rewrite app_assoc. split; [reflexivity|].
    split; [now rewrite <- app_assoc|]. split; [rewrite app_length; cbn [length]; lia|]. rewrite app_assoc. split; [exact Hb2|].
    intros fuel2 c T m Hc Hl. rewrite <- app_assoc in Hc, Hl. rewrite app_length in Hl. destruct fuel2 as [|f2]; [lia|]. cbn [decode_loop].
    destruct (Hm c _ m Hc) as (c1 & -> & Hc1). cbn [bind andb]. rewrite Ex. apply Hm2; [exact Hc1|lia].
Qed.

(** Going to the next octet stays inside the bucket. *)
Lemma advance_reads b A R : rd b A R -> whole A R -> exists z R', R = z ++ R' /\ length z = pad_len (length A) /\ rd (bb_advance b) (A ++ z) R'.
Proof.
  intros Hb Hw. assert (L : (pad_len (length A) <= length R)%nat).
  { unfold whole in Hw. unfold pad_len. pose proof (Nat.mod_upper_bound (length A) 8 ltac:(lia)).
    destruct (Nat.eq_dec (length A mod 8) 0) as [E|E]; [rewrite E; cbn; lia|]. rewrite (Nat.mod_small (8 - _)) by lia.
    destruct (Nat.lt_ge_cases (length R) (8 - length A mod 8)) as [C|C]; [|exact C]. exfalso.
    rewrite <- Nat.add_mod_idemp_l in Hw by lia. rewrite (Nat.mod_small (_ + _)) in Hw by lia. lia. }
  destruct (split_bits R _ L) as (z & R' & -> & Hz). exists z, R'. split; [reflexivity|]. split; [exact Hz|]. now apply rd_advance.
Qed.

Definition has_node (h : huffman) : Prop := exists l r, h_tree h = DNode l r.

Lemma reads_str h : has_node h -> reads (h_tree h) (unpack_str h) (fun s u => (length s < length u)%nat).
Proof.
  intros Hh b A R Hb Hw. unfold reads_at, unpack_str, decode_from_bb. cbn [negb andb Nat.eqb].
  assert (Hn : (length R < S (bb_num b))%nat) by (rewrite (rd_num _ _ _ Hb); lia).
  pose proof (decode_loop_reads (h_tree h) Hh (S (bb_num b)) b A R 0%nat [] Hb Hw Hn) as HL.
  destruct (decode_loop (S (bb_num b)) (h_tree h) true None b 0 []) as [[[s b1] n1]|e]; cbn [bind]; [|exact HL].
  destruct HL as (u & R' & got & -> & -> & Hg & Hb1 & Hm). destruct (advance_reads b1 _ R' Hb1 (whole_step _ _ _ Hw)) as (z & R2 & -> & Hz & Hb2).
  exists (u ++ z), R2. rewrite !app_assoc in *. split; [reflexivity|]. split; [cbn [app]; rewrite app_length; lia|]. split; [exact Hb2|].
  intros c T Hc. rewrite <- app_assoc in Hc. destruct (Hm (S (bb_num c)) c _ 0%nat Hc) as (c1 & m1 & -> & Hc1).
  { rewrite (rd_num _ _ _ Hc). lia. }
  cbn [bind]. eexists. split; [reflexivity|]. now apply rd_advance.
Qed.

(** ** Operations *)

(** How much an operation holds. *)
Definition op_text (o : op) : nat := match o with OToggl _ _ | OTrang _ _ _ => 0 | OClone _ _ v => length v | OKvsto _ k v => length k + length v end.
Definition op_fields (w : iwidth) (o : op) : Prop :=
  match o with OToggl _ i | OClone _ i _ => idx_range w i | OTrang _ i s => idx_range w i /\ idx_range w s | OKvsto _ _ _ => True end.

Lemma reads_op w h c : has_node h -> reads (h_tree h) (read_op w h c)
  (fun o u => (2 <= length u)%nat /\ (op_text o < length u)%nat /\ op_fields w o).
Proof.
  intros Hh. destruct c as [k e]. unfold read_op. destruct k.
  - apply (reads_map _ (unpack_index w) (fun i => OToggl e i) _ _ (reads_index _ w)). intros i u [Hi Hu]. cbn [op_text op_fields]. intuition lia.
  - apply (reads_bind _ (unpack_index w) (fun i b => let* (s, b) := unpack_index w b in Ok (OTrang e i s, b)) _ _ (reads_index _ w)). intros i.
    apply (reads_map _ (unpack_index w) (fun s => OTrang e i s) _ _ (reads_index _ w)). intros s v [Hs Hv] u [Hi Hu].
    cbn [op_text op_fields]. rewrite app_length. intuition lia.
  - apply (reads_bind _ (unpack_index w) (fun i b => let* (s, b) := unpack_str h b in Ok (OClone e i s, b)) _ _ (reads_index _ w)). intros i.
    apply (reads_map _ (unpack_str h) (fun s => OClone e i s) _ _ (reads_str h Hh)). intros s v Hv u [Hi Hu].
    cbn [op_text op_fields]. rewrite app_length. intuition lia.
  - apply (reads_bind _ (unpack_str h) (fun k b => let* (s, b) := unpack_str h b in Ok (OKvsto e k s, b)) _ _ (reads_str h Hh)). intros k.
    apply (reads_map _ (unpack_str h) (fun s => OKvsto e k s) _ _ (reads_str h Hh)). intros s v Hv u Hu.
    cbn [op_text op_fields]. rewrite app_length. intuition lia.
Qed.

(** Operations and their text are paid for by bits. *)
Fixpoint ops_cost (l : list op) : nat := match l with [] => 0 | o :: r => 1 + op_text o + ops_cost r end.
Definition paid (w : iwidth) (l : list op) (u : list bool) : Prop := (ops_cost l <= length u)%nat /\ Forall (op_fields w) l.

Lemma ops_cost_app a b : ops_cost (a ++ b) = (ops_cost a + ops_cost b)%nat.
Proof. induction a as [|o a IH]; cbn [app ops_cost]; [reflexivity|]. rewrite IH. lia. Qed.
Lemma paid_nil w u : paid w [] u.
Proof. split; [cbn; lia|constructor]. Qed.
Lemma paid_app w a b u v : paid w a u -> paid w b v -> paid w (a ++ b) (u ++ v).
Proof. intros [H1 H2] [H3 H4]. split; [rewrite ops_cost_app, app_length; lia|now apply Forall_app]. Qed.
Lemma paid_more w a u v : paid w a u -> paid w a (u ++ v).
Proof. intros H. rewrite <- (app_nil_r a). apply paid_app; [exact H|apply paid_nil]. Qed.
Lemma paid_after w a u v : paid w a v -> paid w a (u ++ v).
Proof. intros H. apply (paid_app w [] a u v (paid_nil w u) H). Qed.

Section Ops.
  Variables (w : iwidth) (h : huffman).
  Hypothesis Hh : has_node h.
  Local Notation bad' := (bad (h_tree h)).

  Lemma read_ops_extends c n b acc : exists more r, read_ops n w h c b acc = (acc ++ more, r).
  Proof.
    revert b acc. induction n as [|n IH]; intros b acc; cbn [read_ops]; [exists [], (Ok b); now rewrite app_nil_r|].
    destruct (read_op w h c b) as [[o b1]|e]; [|exists [], (Err e); now rewrite app_nil_r].
    destruct (IH b1 (acc ++ [o])) as (more & r & ->). exists (o :: more), r. now rewrite <- app_assoc.
  Qed.

  Lemma read_ops_reads c : forall n b A R acc, rd b A R -> whole A R ->
    exists got r, read_ops n w h c b acc = (acc ++ got, r) /\
    match r with
    | Ok b' => exists u R', R = u ++ R' /\ paid w got u /\ rd b' (A ++ u) R' /\
        forall b2 T, rd b2 A (u ++ T) -> exists b3, read_ops n w h c b2 acc = (acc ++ got, Ok b3) /\ rd b3 (A ++ u) T
    | Err e => bad' e /\ paid w got R /\ forall b2 T, rd b2 A (R ++ T) -> whole A (R ++ T) ->
        exists more r', read_ops n w h c b2 acc = (acc ++ got ++ more, r')
    end.
  Proof.
    induction n as [|n IH]; intros b A R acc Hb Hw; cbn [read_ops].
    - exists [], (Ok b). rewrite app_nil_r. split; [reflexivity|]. exists [], R. split; [reflexivity|]. split; [apply paid_nil|].
      rewrite app_nil_r. split; [exact Hb|]. intros b2 T H2. exists b2. now split.
    - pose proof (reads_op w h c Hh b A R Hb Hw) as H1. unfold reads_at in H1. destruct (read_op w h c b) as [[o b1]|e] eqn:Eo.
      + destruct H1 as (u & R' & -> & (_ & Ht & Hfi) & Hb1 & Hm). destruct (IH b1 _ R' (acc ++ [o]) Hb1 (whole_step _ _ _ Hw)) as (got & r & E & Hr).
        assert (P1 : paid w [o] u) by (split; [cbn [ops_cost]; lia|repeat constructor; exact Hfi]).
        exists (o :: got), r. rewrite E, <- app_assoc. split; [reflexivity|]. destruct r as [b3|e].
        * destruct Hr as (u2 & R2 & -> & P2 & Hb3 & Hm2). exists (u ++ u2), R2. rewrite !app_assoc in *. split; [reflexivity|].
          split; [apply (paid_app w [o] got); assumption|]. split; [exact Hb3|]. intros b2 T H2. rewrite <- app_assoc in H2.
          destruct (Hm b2 _ H2) as (b4 & -> & H4). destruct (Hm2 b4 T H4) as (b5 & -> & H5). exists b5. rewrite <- app_assoc. now split.
        * destruct Hr as (He & P2 & Hm2). split; [exact He|]. split; [apply (paid_app w [o] got); assumption|]. intros b2 T H2 Hw2. rewrite <- app_assoc in H2.
          destruct (Hm b2 _ H2) as (b4 & -> & H4). rewrite <- app_assoc in Hw2. destruct (Hm2 b4 T H4 (whole_step _ _ _ Hw2)) as (more & r' & ->).
          exists more, r'. now rewrite <- app_assoc.
      + exists [], (Err e). rewrite app_nil_r. split; [reflexivity|]. split; [exact H1|]. split; [apply paid_nil|]. intros b2 T H2 Hw2. cbn [app].
        apply (read_ops_extends c (S n)).
  Qed.

  Lemma read_chunk_extends b acc : exists more r, read_chunk w h b acc = (acc ++ more, r).
  Proof.
    unfold read_chunk. destruct (bb_get8 b) as [[v b1]|e]; [|exists [], (Err e); now rewrite app_nil_r].
    destruct (opcode_to_op (N.shiftr v 4)) as [c|e]; [|exists [], (Err e); now rewrite app_nil_r]. apply read_ops_extends.
  Qed.

  Lemma read_chunk_reads b A R acc : rd b A R -> whole A R ->
    exists got r, read_chunk w h b acc = (acc ++ got, r) /\
    match r with
    | Ok b' => exists u R', R = u ++ R' /\ (8 <= length u)%nat /\ paid w got u /\ rd b' (A ++ u) R' /\
        forall b2 T, rd b2 A (u ++ T) -> exists b3, read_chunk w h b2 acc = (acc ++ got, Ok b3) /\ rd b3 (A ++ u) T
    | Err e => paid w got R /\
        ((e = KeyError /\ got = [] /\ (exists u R' b1 v, R = u ++ R' /\ (8 <= length u)%nat /\ bb_get8 b = Ok (v, b1) /\ rd b1 (A ++ u) R') /\
          forall b2 T, rd b2 A (R ++ T) -> read_chunk w h b2 acc = (acc, Err KeyError)) \/
         (bad' e /\ forall b2 T, rd b2 A (R ++ T) -> whole A (R ++ T) -> exists more r', read_chunk w h b2 acc = (acc ++ got ++ more, r')))
    end.
  Proof.
    intros Hb Hw. unfold read_chunk. pose proof (reads_get8 (h_tree h) b A R Hb Hw) as H1. unfold reads_at in H1.
    destruct (bb_get8 b) as [[v b1]|e] eqn:E8.
    2:{ exists [], (Err e). rewrite app_nil_r. split; [reflexivity|]. split; [apply paid_nil|]. right. split; [exact H1|]. intros b2 T _ _. cbn [app]. apply read_chunk_extends. }
    destruct H1 as (u & R' & -> & (Hu & _ & _) & Hb1 & Hm). destruct (opcode_to_op (N.shiftr v 4)) as [c|e] eqn:Ec.
    - destruct (read_ops_reads c (S (N.to_nat (N.land v 15))) b1 _ R' acc Hb1 (whole_step _ _ _ Hw)) as (got & r & E & Hr).
      exists got, r. split; [exact E|]. destruct r as [b3|e].
      + destruct Hr as (u2 & R2 & -> & P & Hb3 & Hm2). exists (u ++ u2), R2. rewrite !app_assoc in *. split; [reflexivity|]. split; [rewrite app_length; lia|].
        split; [now apply paid_after|]. split; [exact Hb3|]. intros b2 T H2. rewrite <- app_assoc in H2. destruct (Hm b2 _ H2) as (b4 & -> & H4). rewrite Ec. now apply Hm2.
      + destruct Hr as (He & P & Hm2). split; [now apply paid_after|]. right. split; [exact He|]. intros b2 T H2 Hw2. rewrite <- app_assoc in H2, Hw2.
        destruct (Hm b2 _ H2) as (b4 & -> & H4). rewrite Ec. now apply (Hm2 b4 T H4), whole_step.
    - exists [], (Err e). rewrite app_nil_r. split; [reflexivity|]. split; [apply paid_nil|]. left.
      assert (e = KeyError). { unfold opcode_to_op in Ec. destruct (N.shiftr v 4) as [|p]; [discriminate|]. do 3 (try discriminate; destruct p as [p|p|]); congruence. }
      subst e. split; [reflexivity|]. split; [reflexivity|]. split; [exists u, R', b1, v; split; [reflexivity|]; split; [lia|]; split; [reflexivity|exact Hb1]|].
      intros b2 T H2. rewrite <- app_assoc in H2. destruct (Hm b2 _ H2) as (b4 & -> & H4). now rewrite Ec.
  Qed.

  Lemma bad_not_key t e : bad t e -> e <> KeyError /\ e <> Diverge.
  Proof. intros [->|[-> _]]; split; discriminate. Qed.

  (** Any bucket: what was collected before is kept. *)
  Lemma read_frame_extends : forall fuel F b A R acc, rd b A R -> whole A R -> (length R < fuel)%nat ->
    exists got r, read_frame fuel w h F b acc = Ok (acc ++ got, r) /\ paid w got R /\
      match r with Ok b' => exists u R', R = u ++ R' /\ paid w got u /\ rd b' (A ++ u) R' | Err e => bad' e end.
  Proof.
    induction fuel as [|f IH]; intros F b A R acc Hb Hw Hf; [lia|]. cbn [read_frame]. destruct (8 <? F)%Z.
    2:{ exists [], (Ok b). rewrite app_nil_r. split; [reflexivity|]. split; [apply paid_nil|]. exists [], R. rewrite app_nil_r. split; [reflexivity|]. split; [apply paid_nil|exact Hb]. }
    destruct (read_chunk_reads b A R acc Hb Hw) as (got & r & E & Hr). rewrite E. destruct r as [b1|e].
    - destruct Hr as (u & R' & -> & Hu & P & Hb1 & _). rewrite app_length in Hf.
      destruct (IH (F - (Z.of_nat (bb_remaining b) - Z.of_nat (bb_remaining b1)))%Z b1 _ R' (acc ++ got) Hb1 (whole_step _ _ _ Hw) ltac:(lia)) as (got2 & r2 & E2 & P2 & H2).
      exists (got ++ got2), r2. rewrite E2, <- app_assoc. split; [reflexivity|]. split; [now apply paid_app|].
      destruct r2 as [b3|e]; [|exact H2]. destruct H2 as (u2 & R2 & -> & P3 & H2). exists (u ++ u2), R2. rewrite !app_assoc in *. split; [reflexivity|]. split; [now apply paid_app|exact H2].
    - destruct Hr as (P & [(-> & -> & (u & R' & b1 & v & -> & Hu & E8 & Hb1) & _)|(He & _)]).
      + rewrite E8. cbn [bind]. exists [], (Ok b1). split; [reflexivity|]. split; [exact P|]. exists u, R'. split; [reflexivity|]. split; [apply paid_nil|exact Hb1].
      + exists got, (Err e). split; [|split; [exact P|exact He]]. destruct (bad_not_key _ _ He). destruct e; try reflexivity; contradiction.
  Qed.

  (** A bucket and a longer one: the shorter one yields a beginning. *)
  Lemma read_frame_mono : forall fuel F b A R acc fuel2 b2 T, rd b A R -> whole A R -> (length R < fuel)%nat ->
    rd b2 A (R ++ T) -> whole A (R ++ T) -> (length (R ++ T) < fuel2)%nat ->
    exists got r more r', read_frame fuel w h F b acc = Ok (acc ++ got, r) /\ read_frame fuel2 w h F b2 acc = Ok (acc ++ got ++ more, r').
  Proof.
    induction fuel as [|f IH]; intros F b A R acc fuel2 b2 T Hb Hw Hf Hb2 Hw2 Hf2; [lia|].
    destruct (read_frame_extends fuel2 F b2 A (R ++ T) acc Hb2 Hw2 Hf2) as (gl & rl & El & _).
    destruct fuel2 as [|f2]; [lia|]. cbn [read_frame] in El |- *. destruct (8 <? F)%Z.
    2:{ exists [], (Ok b), [], (Ok b2). cbn [app]. rewrite !app_nil_r. now split. }
    destruct (read_chunk_reads b A R acc Hb Hw) as (got & r & E & Hr). rewrite E. destruct r as [b1|e].
    - destruct Hr as (u & R' & -> & Hu & P & Hb1 & Hm). rewrite <- app_assoc in Hb2, Hw2, Hf2. rewrite app_length in Hf, Hf2.
      destruct (Hm b2 _ Hb2) as (b3 & E3 & Hb3). rewrite E3 in El |- *.
      assert (EF : (F - (Z.of_nat (bb_remaining b2) - Z.of_nat (bb_remaining b3)) = F - (Z.of_nat (bb_remaining b) - Z.of_nat (bb_remaining b1)))%Z).
      { rewrite (rd_remaining _ _ _ Hb), (rd_remaining _ _ _ Hb1), (rd_remaining _ _ _ Hb2), (rd_remaining _ _ _ Hb3), !app_length. lia. }
      rewrite EF. destruct (IH (F - (Z.of_nat (bb_remaining b) - Z.of_nat (bb_remaining b1)))%Z b1 _ R' (acc ++ got) f2 b3 T Hb1 (whole_step _ _ _ Hw) ltac:(lia) Hb3 (whole_step _ _ _ Hw2) ltac:(lia))
        as (g2 & r2 & m2 & r3 & E4 & E5).
      exists (got ++ g2), r2, m2, r3. rewrite E4, E5, <- !app_assoc. now split.
    - destruct Hr as (P & [(-> & -> & (u & R' & b1 & v & -> & Hu & E8 & Hb1) & Hk)|(He & Hk)]).
      + rewrite (Hk b2 T Hb2) in El |- *. rewrite E8. cbn [bind]. apply bind_ok in El. destruct El as ([v2 b3] & El & _). rewrite El. cbn [bind].
        exists [], (Ok b1), [], (Ok b3). cbn [app]. rewrite app_nil_r. now split.
      + exists got, (Err e). destruct (Hk b2 T Hb2 Hw2) as (more & r' & E3). rewrite E3 in El |- *.
        assert (Es : (match e with Diverge => Err Diverge | KeyError => let* (_, b') := bb_get8 b in Ok (acc ++ got, Ok b') | _ => Ok (acc ++ got, Err e) end) = Ok (acc ++ got, Err e)).
        { destruct (bad_not_key _ _ He). destruct e; try reflexivity; contradiction. }
        rewrite Es. clear Es. destruct r' as [b3|e'].
        * assert (Hx : exists m3, gl = got ++ m3).
          { (* the longer one goes on *)
            destruct (read_chunk_reads b2 A (R ++ T) acc Hb2 Hw2) as (g4 & r4 & E4 & Hr4). rewrite E3 in E4.
            injection E4 as E4 <-. destruct Hr4 as (u & R' & EL & Hu & _ & Hb3 & _). apply app_inv_head in E4.
            rewrite EL in Hw2, Hf2. rewrite app_length in Hf2.
            destruct (read_frame_extends f2 (F - (Z.of_nat (bb_remaining b2) - Z.of_nat (bb_remaining b3)))%Z b3 _ R' (acc ++ got ++ more) Hb3 (whole_step _ _ _ Hw2) ltac:(lia)) as (g5 & r5 & E5 & _).
            rewrite E5 in El. injection El as El _. rewrite <- !app_assoc in El. apply app_inv_head in El. eexists. symmetry. exact El. }
          destruct Hx as (m3 & ->). exists m3, rl. split; [reflexivity|exact El].
        * assert (Hx : gl = got ++ more /\ True).
          { destruct e'; try (injection El as El _; apply app_inv_head in El; now split); try discriminate.
            apply bind_ok in El. destruct El as ([v2 b3] & _ & El). injection El as El _. apply app_inv_head in El. now split. }
          destruct Hx as (-> & _). exists more, rl. split; [reflexivity|exact El].
  Qed.
End Ops.

(** ** Messages *)

Lemma from_wire_frames w h blob : is_bytes blob -> exists b, rd b [] (bits_of_bytes blob) /\
  from_wire w h blob = read_frames (S (8 * length blob)) w h b [].
Proof.
  intros Hby. unfold from_wire. destruct (store_octets bb_new [] [] blob (length blob) wr_new Hby) as (b0 & E0 & B0). rewrite E0. cbn [bind app] in *.
  unfold deserialize, bb_all. destruct (copy_bits b0 _ B0) as (b & Ec & B). rewrite Ec. cbn [bind]. exists b. split; [exact B|].
  rewrite (rd_num _ _ _ B). cbn [length Nat.add]. now rewrite bits_of_bytes_length.
Qed.

Lemma whole_bytes s : whole [] (bits_of_bytes s).
Proof. unfold whole. cbn [length Nat.add]. rewrite bits_of_bytes_length, Nat.mul_comm. apply Nat.mod_mul. lia. Qed.

(** The nine octets before a payload. *)
Definition read_header (b : bb) : res (N * N * N * bb) :=
  let* (len, b) := bb_get16 b in
  let* (_, b) := bb_get8 b in
  let* (flags, b) := bb_get8 b in
  let* (_, b) := bb_get32 b in
  let* (gid, b) := bb_get8 b in
  Ok (len, flags, gid, b).

Lemma read_frames_header f w h b ops : read_frames (S f) w h b ops =
  let* (x, b) := read_header b in
  let '(len, flags, gid) := x in
  let* (ops, r) := read_frame (S (bb_num b)) w h (Z.of_N len * 8) b ops in
  if flags =? 0 then match r with Ok b => read_frames f w h b ops | Err StandardError => Err StandardError | Err _ => Err Diverge end
  else Ok (gid, ops).
Proof.
  unfold read_header. cbn [read_frames]. destruct (bb_get16 b) as [[len b1]|]; cbn [bind]; [|reflexivity].
  destruct (bb_get8 b1) as [[v b2]|]; cbn [bind]; [|reflexivity]. destruct (bb_get8 b2) as [[fl b3]|]; cbn [bind]; [|reflexivity].
  destruct (bb_get32 b3) as [[sid b4]|]; cbn [bind]; [|reflexivity]. now destruct (bb_get8 b4) as [[g b5]|].
Qed.

Lemma reads_header t : reads t read_header (fun '(len, flags, gid) u => length u = 72%nat /\ len < 65536 /\ flags < 256 /\ gid < 256).
Proof.
  unfold read_header.
  apply (reads_bind t bb_get16 (fun len b => let* (_, b) := bb_get8 b in let* (flags, b) := bb_get8 b in let* (_, b) := bb_get32 b in
    let* (gid, b) := bb_get8 b in Ok (len, flags, gid, b)) _ _ (reads_get16 t)). intros len.
  apply (reads_bind t bb_get8 (fun _ b => let* (flags, b) := bb_get8 b in let* (_, b) := bb_get32 b in
    let* (gid, b) := bb_get8 b in Ok (len, flags, gid, b)) _ _ (reads_get8 t)). intros ty.
  apply (reads_bind t bb_get8 (fun flags b => let* (_, b) := bb_get32 b in
    let* (gid, b) := bb_get8 b in Ok (len, flags, gid, b)) _ _ (reads_get8 t)). intros flags.
  apply (reads_bind t bb_get32 (fun _ b => let* (gid, b) := bb_get8 b in Ok (len, flags, gid, b)) _ _ (reads_get32 t)). intros sid.
  apply (reads_map t bb_get8 (fun gid => (len, flags, gid)) _ _ (reads_get8 t)).
  intros gid u (H1 & H2 & _) u4 H4 u3 (H3 & Hfl & _) u2 (Hu2 & _) u1 (Hu1 & Hlen & _). rewrite !app_length. intuition lia.
Qed.

Lemma header_octets a1 a2 ty fl s1 s2 s3 s4 g : is_bytes [a1; a2; ty; fl; s1; s2; s3; s4; g] -> forall b T,
  rd b [] (bits_of_bytes [a1; a2; ty; fl; s1; s2; s3; s4; g] ++ T) ->
  exists b', read_header b = Ok (a1 * 256 + a2, fl, g, b') /\ rd b' (bits_of_bytes [a1; a2; ty; fl; s1; s2; s3; s4; g]) T.
Proof.
  intros Hby b T Hb. unfold is_bytes in Hby. rewrite !Forall_cons_iff in Hby. destruct Hby as (H1 & H2 & H3 & H4 & H5 & H6 & H7 & H8 & H9 & _).
  change [a1; a2; ty; fl; s1; s2; s3; s4; g] with ([a1; a2] ++ [ty] ++ [fl] ++ [s1; s2; s3; s4] ++ [g]) in *.
  assert (Eo : [a1; a2] = o16 (a1 * 256 + a2)) by (unfold o16; f_equal; [|f_equal]; lia). rewrite Eo in *.
  rewrite !bob_app, !bob_one, <- !app_assoc in Hb. unfold read_header.
  destruct (rd_get16 b [] _ (a1 * 256 + a2) ltac:(lia) Hb) as (b1 & -> & Hb1). cbn [bind].
  destruct (rd_get8 b1 _ _ ty H3 Hb1) as (b2 & -> & Hb2). cbn [bind].
  destruct (rd_get8 b2 _ _ fl H4 Hb2) as (b3 & -> & Hb3). cbn [bind]. unfold bb_get32.
  destruct (rd_get_octets b3 _ _ [s1; s2; s3; s4] 32 ltac:(unfold is_bytes; rewrite !Forall_cons_iff; auto) eq_refl Hb3) as (b4 & -> & Hb4). cbn [bind].
  unfold pynth. cbn [nth_error bind]. destruct (rd_get8 b4 _ _ g H9 Hb4) as (b5 & -> & Hb5). cbn [bind]. exists b5. split; [reflexivity|].
  rewrite !bob_app, !bob_one. cbn [app] in Hb5. rewrite <- !app_assoc in Hb5. exact Hb5.
Qed.

Lemma read_frames_total w h : has_node h -> full (h_tree h) = true -> forall fuel b A R acc, rd b A R -> whole A R -> (length R < fuel)%nat ->
  match read_frames fuel w h b acc with
  | Ok (gid, ops) => exists got u, ops = acc ++ got /\ gid < 256 /\ (72 + length u <= length R)%nat /\ paid w got u
  | Err e => e = StandardError
  end.
Proof.
  intros Hh Hfull. induction fuel as [|f IH]; intros b A R acc Hb Hw Hf; [lia|]. rewrite read_frames_header.
  assert (Hbad : forall e, bad (h_tree h) e -> e = StandardError) by (intros e [He|[_ C]]; congruence).
  pose proof (reads_header (h_tree h) b A R Hb Hw) as H1. unfold reads_at in H1. destruct (read_header b) as [[[[len flags] gid] b1]|e]; cbn [bind]; [|now apply Hbad].
  destruct H1 as (u & R' & -> & (Hu & Hl & Hfl & Hg) & Hb1 & _). rewrite app_length in Hf.
  assert (Hn : (length R' < S (bb_num b1))%nat) by (rewrite (rd_num _ _ _ Hb1); lia).
  destruct (read_frame_extends w h Hh (S (bb_num b1)) (Z.of_N len * 8) b1 _ R' acc Hb1 (whole_step _ _ _ Hw) Hn) as (got & r & -> & P & Hr). cbn [bind].
  destruct (flags =? 0).
  - destruct r as [b2|e]; [|rewrite (Hbad e Hr); reflexivity]. destruct Hr as (u2 & R2 & -> & P2 & Hb2). rewrite app_length in Hf.
    specialize (IH b2 _ R2 (acc ++ got) Hb2 (whole_step _ _ _ (whole_step _ _ _ Hw)) ltac:(lia)).
    destruct (read_frames f w h b2 (acc ++ got)) as [[g2 ops]|e]; [|exact IH]. destruct IH as (got2 & u3 & -> & Hg2 & Hl3 & P3).
    exists (got ++ got2), (u2 ++ u3). split; [now rewrite app_assoc|]. split; [exact Hg2|]. split; [rewrite !app_length; lia|now apply paid_app].
  - exists got, R'. split; [reflexivity|]. split; [exact Hg|]. split; [rewrite app_length; lia|exact P].
Qed.

Theorem from_wire_total w h blob : has_node h -> full (h_tree h) = true -> is_bytes blob ->
  match from_wire w h blob with
  | Ok (gid, ops) => gid < 256 /\ (72 + ops_cost ops <= 8 * length blob)%nat /\ Forall (op_fields w) ops
  | Err e => e = StandardError
  end.
Proof.
  intros Hh Hfull Hby. destruct (from_wire_frames w h blob Hby) as (b & Hb & ->).
  pose proof (read_frames_total w h Hh Hfull (S (8 * length blob)) b [] _ [] Hb (whole_bytes blob)) as H. rewrite bits_of_bytes_length in H. specialize (H ltac:(lia)).
  destruct (read_frames _ w h b []) as [[gid ops]|e]; [|exact H]. destruct H as (got & u & -> & Hg & Hl & P1 & P2). cbn [app]. split; [exact Hg|]. split; [lia|exact P2].
Qed.

Lemma nine_octets (blob : str) : (9 <= length blob)%nat -> exists a1 a2 ty fl s1 s2 s3 s4 g rest, blob = [a1; a2; ty; fl; s1; s2; s3; s4; g] ++ rest.
Proof.
  intros H. destruct blob as [|a1 [|a2 [|ty [|fl [|s1 [|s2 [|s3 [|s4 [|g rest]]]]]]]]]; cbn [length] in H; try lia. now exists a1, a2, ty, fl, s1, s2, s3, s4, g, rest.
Qed.

Theorem from_wire_cut w h blob k : has_node h -> is_bytes blob -> (9 <= k <= length blob)%nat -> nth 3 blob 0 <> 0 ->
  exists got lost, from_wire w h (firstn k blob) = Ok (nth 8 blob 0, got) /\ from_wire w h blob = Ok (nth 8 blob 0, got ++ lost).
Proof.
  intros Hh Hby Hk Hfl. destruct (nine_octets blob ltac:(lia)) as (a1 & a2 & ty & fl & s1 & s2 & s3 & s4 & g & rest & ->). cbn [nth app] in Hfl |- *.
  set (hd := [a1; a2; ty; fl; s1; s2; s3; s4; g]) in *. assert (Lh : length hd = 9%nat) by reflexivity.
  change (a1 :: a2 :: ty :: fl :: s1 :: s2 :: s3 :: s4 :: g :: rest) with (hd ++ rest). rewrite app_length in Hk.
  rewrite firstn_app, (firstn_all2 hd) by lia. set (short := firstn (k - length hd) rest). set (T := skipn (k - length hd) rest).
  assert (Er : rest = short ++ T) by (symmetry; apply firstn_skipn). unfold is_bytes in Hby. rewrite Er, !Forall_app in Hby. destruct Hby as (Hh1 & Hs & HT).
  clearbody short T. subst rest.
  destruct (from_wire_frames w h (hd ++ short)) as (b & Hb & ->); [unfold is_bytes; rewrite Forall_app; now split|].
  destruct (from_wire_frames w h (hd ++ short ++ T)) as (b2 & Hb2 & ->); [unfold is_bytes; rewrite !Forall_app; auto|].
  pose proof (whole_bytes (hd ++ short)) as Hw. pose proof (whole_bytes (hd ++ short ++ T)) as Hw2.
  rewrite !bob_app in Hb, Hw. rewrite (bob_app hd), (bob_app short) in Hb2, Hw2.
  rewrite !read_frames_header. destruct (header_octets _ _ _ _ _ _ _ _ _ Hh1 b _ Hb) as (b3 & -> & Hb3). destruct (header_octets _ _ _ _ _ _ _ _ _ Hh1 b2 _ Hb2) as (b4 & -> & Hb4).
  cbn [bind]. fold hd in Hb3, Hb4.
  destruct (read_frame_mono w h Hh (S (bb_num b3)) (Z.of_N (a1 * 256 + a2) * 8) b3 (bits_of_bytes hd) (bits_of_bytes short) [] (S (bb_num b4)) b4 (bits_of_bytes T)) as (got & r & more & r' & -> & ->).
  - exact Hb3.
  - apply (whole_step [] _ _ Hw).
  - rewrite (rd_num _ _ _ Hb3). lia.
  - exact Hb4.
  - apply (whole_step [] _ _ Hw2).
  - rewrite (rd_num _ _ _ Hb4). lia.
  - cbn [bind app]. destruct (N.eqb_spec fl 0) as [C|_]; [contradiction|]. exists got, more. now split.
Qed.

Lemma from_wire_short w h blob : is_bytes blob -> (length blob < 9)%nat -> from_wire w h blob = Err StandardError.
Proof.
  intros Hby Hl. destruct (from_wire_frames w h blob Hby) as (b & Hb & ->). rewrite read_frames_header.
  pose proof (reads_header (DLeaf 0) b [] _ Hb (whole_bytes blob)) as H1. unfold reads_at in H1. destruct (read_header b) as [[[[len flags] gid] b1]|e]; cbn [bind].
  - destruct H1 as (u & R' & E & (Hu & _) & _). exfalso. apply (f_equal (@length bool)) in E. rewrite bits_of_bytes_length, app_length in E. lia.
  - destruct H1 as [->|[_ C]]; [reflexivity|discriminate].
Qed.
