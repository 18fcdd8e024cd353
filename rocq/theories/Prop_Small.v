(** * Properties C27, C32, C41 and C43. *)
From Coq Require Import String List NArith ZArith Bool Lia Arith ZifyN.
From Verif Require Import PyBase NBits BB_Model Small_Model.
Import ListNotations.
Open Scope N_scope.
Open Scope py_scope.
Ltac Zify.zify_post_hook ::= Z.div_mod_to_equations.

(** ** C27: identifiers that are not in use *)

(** A store with [m] identifiers after some requests and returns; [used] are the
    identifiers handed out and not given back.  Nothing is asked for when all
    [m] identifiers are in use. *)
Inductive ids_reach (m : N) : idstore -> list N -> Prop :=
| ir_new : ids_reach m (ids_new m) []
| ir_get pick s used x s' : ids_reach m s used -> lenN used < m -> ids_get pick s = (x, s') -> ids_reach m s' (x :: used)
| ir_done s used x : ids_reach m s used -> In x used -> ids_reach m (ids_done s x) (removeN x used).

Lemma memN_iff x l : memN x l = true <-> In x l.
Proof.
  unfold memN. rewrite existsb_exists. split.
  - intros (y & H & E). apply N.eqb_eq in E. now subst.
  - intros H. exists x. split; [exact H|apply N.eqb_refl].
Qed.
Lemma removeN_iff x y l : In y (removeN x l) <-> In y l /\ y <> x.
Proof.
  unfold removeN. rewrite filter_In, negb_true_iff, N.eqb_neq. intuition congruence.
Qed.
Lemma NoDup_removeN x l : NoDup l -> NoDup (removeN x l).
Proof. intros H. now apply NoDup_filter. Qed.
Lemma removeN_notin x l : ~ In x l -> removeN x l = l.
Proof.
  intros H. unfold removeN. induction l as [|y l IH]; [reflexivity|]. cbn [filter].
  destruct (N.eqb_spec x y) as [E|E]; [exfalso; apply H; left; congruence|]. cbn [negb]. f_equal. apply IH. intros C. apply H. now right.
Qed.
Lemma removeN_length x l : NoDup l -> In x l -> length l = S (length (removeN x l)).
Proof.
  induction l as [|y l IH]; intros HN HI; [destruct HI|]. inversion HN as [|? ? Hy HN']; subst. cbn [removeN filter].
  destruct (N.eqb_spec x y) as [E|E]; cbn [negb].
  - subst y. fold (removeN x l). rewrite removeN_notin by exact Hy. reflexivity.
  - cbn [length]. fold (removeN x l). f_equal. apply IH; [exact HN'|]. destruct HI; congruence.
Qed.

(** [c] identifiers have ever been created: 1, 2, ..., and 0 as the [m]-th. *)
Definition created (m c x : N) : Prop := (1 <= x <= c /\ x < m) \/ (x = 0 /\ c = m).
Definition ids_inv (m : N) (s : idstore) (used : list N) : Prop :=
  exists c, c <= m /\ is_max s = m /\ is_next s = (if c =? m then 0 else c) /\
    NoDup (is_ids s) /\ NoDup used /\ (forall x, In x used -> ~ In x (is_ids s)) /\
    (forall x, In x used \/ In x (is_ids s) -> created m c x) /\ lenN used + lenN (is_ids s) = c.

Lemma ids_reach_inv m s used : 0 < m -> ids_reach m s used -> ids_inv m s used /\
  (forall pick x s', lenN used < m -> ids_get pick s = (x, s') -> ~ In x used).
Proof.
  intros Hm.
  (* a request, from the invariant *)
  assert (Step : forall s used pick x s', ids_inv m s used -> lenN used < m -> ids_get pick s = (x, s') ->
     ~ In x used /\ ids_inv m s' (x :: used)).
  { clear s used. intros s used pick x s' (c & Hc & Hmax & Hnext & HN1 & HN2 & HD & HC & HL) Hlt E. unfold ids_get in E.
    destruct (is_ids s) as [|d l] eqn:El.
    - (* a new one *)
      change (lenN (@nil N)) with 0 in HL. rewrite N.add_0_r in HL.
      assert (Hcm : c < m) by lia. rewrite Hmax in E. destruct (N.eqb_spec c m) as [C|_]; [lia|]. rewrite Hnext in E.
      destruct (N.eqb_spec m 0) as [C|_]; [lia|]. cbn [negb andb] in E. injection E as Ex Es. subst s'. rewrite <- Ex.
      set (n := if m <=? c + 1 then 0 else c + 1). assert (Hn : n = if m <=? c + 1 then 0 else c + 1) by reflexivity. clearbody n.
      assert (Hnot : ~ In n used).
      { intros H. specialize (HC n (or_introl H)). unfold created in HC. destruct (N.leb_spec m (c + 1)); lia. }
      split; [exact Hnot|]. exists (c + 1). cbn [is_ids is_next is_max]. split; [lia|]. split; [reflexivity|]. split.
      { rewrite Hn. destruct (N.leb_spec m (c + 1)); destruct (N.eqb_spec (c + 1) m); lia. }
      split; [constructor|]. split; [now constructor|]. split; [intros y _ []|]. split.
      + intros y [[Hy|Hy]|[]].
        * subst y. unfold created. rewrite Hn. destruct (N.leb_spec m (c + 1)); lia.
        * specialize (HC y (or_introl Hy)). unfold created in *. lia.
      + unfold lenN in *. cbn [length]. lia.
    - (* one that came back *)
      rewrite <- El in *. injection E as Ex Es.
      assert (Hx : In x (is_ids s)).
      { rewrite <- Ex. apply nth_In. apply Nat.mod_upper_bound. rewrite El. cbn. lia. }
      rewrite Ex in Es. subst s'. split; [intros C; exact (HD x C Hx)|]. exists c. cbn [is_ids is_next is_max].
      split; [exact Hc|]. split; [exact Hmax|]. split; [exact Hnext|]. split; [now apply NoDup_removeN|].
      split; [constructor; [intros C; exact (HD x C Hx)|exact HN2]|]. split.
      { intros y [Hy|Hy]; rewrite removeN_iff; [subst y; tauto|]. intros [Hy2 _]. exact (HD y Hy Hy2). }
      split.
      { intros y [[Hy|Hy]|Hy]; apply HC; [subst y; now right|now left|]. apply removeN_iff in Hy. tauto. }
      pose proof (removeN_length x (is_ids s) HN1 Hx). unfold lenN in *. cbn [length]. lia. }
  intros H. assert (HI : ids_inv m s used).
  { induction H as [|pick s used x s' H IH Hlt E|s used x H IH Hin].
    - exists 0. unfold ids_new. cbn [is_ids is_next is_max]. change (lenN (@nil N)) with 0. destruct (N.eqb_spec 0 m); [lia|].
      split; [lia|]. split; [reflexivity|]. split; [reflexivity|]. split; [constructor|]. split; [constructor|]. split; [intros x []|].
      split; [intros x [[]|[]]|reflexivity].
    - exact (proj2 (Step s used pick x s' IH Hlt E)).
    - destruct IH as (c & Hc & Hmax & Hnext & HN1 & HN2 & HD & HC & HL). exists c. unfold ids_done. cbn [is_ids is_next is_max].
      assert (Hx : memN x (is_ids s) = false).
      { destruct (memN x (is_ids s)) eqn:E; [|reflexivity]. apply memN_iff in E. destruct (HD x Hin E). }
      rewrite Hx. assert (Hx2 : ~ In x (is_ids s)) by exact (HD x Hin).
      split; [exact Hc|]. split; [exact Hmax|]. split; [exact Hnext|]. split; [now constructor|]. split; [now apply NoDup_removeN|].
      split.
      { intros y Hy. apply removeN_iff in Hy as [Hy Hne]. intros [C|C]; [congruence|]. exact (HD y Hy C). }
      split.
      { intros y [Hy|[Hy|Hy]]; apply HC; [apply removeN_iff in Hy; tauto|subst y; now left|now right]. }
      pose proof (removeN_length x used HN2 Hin). unfold lenN in *. cbn [length]. lia. }
  split; [exact HI|]. intros pick x s' Hlt E. exact (proj1 (Step s used pick x s' HI Hlt E)).
Qed.

(** As long as not all [m] identifiers are in use, a request returns one that
    is not, and that is below [m]. *)
Theorem C27_ids_fresh : forall m s used pick x s', 0 < m -> ids_reach m s used -> lenN used < m ->
  ids_get pick s = (x, s') -> ~ In x used /\ x < m.
Proof.
  intros m s used pick x s' Hm H Hlt E. split; [exact (proj2 (ids_reach_inv m s used Hm H) pick x s' Hlt E)|].
  pose proof (ir_get m pick s used x s' H Hlt E) as H2. destruct (ids_reach_inv m s' (x :: used) Hm H2) as [(c & Hc & _ & _ & _ & _ & _ & HC & _) _].
  specialize (HC x (or_introl (or_introl eq_refl))). unfold created in HC. lia.
Qed.
Print Assumptions C27_ids_fresh.

(** When all are in use, the store does not notice: it hands out one of them. *)
Theorem C27_ids_exhausted : forall m s used pick x s', 0 < m -> ids_reach m s used -> lenN used = m ->
  ids_get pick s = (x, s') -> In x used.
Proof.
  intros m s used pick x s' Hm H Hlen E.
  destruct (ids_reach_inv m s used Hm H) as [(c & Hc & Hmax & Hnext & HN1 & HN2 & HD & HC & HL) _].
  assert (El : is_ids s = []) by (destruct (is_ids s); [reflexivity|unfold lenN in *; cbn [length] in HL; lia]).
  assert (Hcm : c = m) by (rewrite El in HL; change (lenN (@nil N)) with 0 in HL; lia). rewrite Hcm in *.
  rewrite N.eqb_refl in Hnext. unfold ids_get in E. rewrite El, Hmax, Hnext in E.
  destruct (N.eqb_spec m 0); [lia|]. cbn [negb andb] in E. assert (Ex : x = if m <=? 0 + 1 then 0 else 0 + 1) by congruence.
  assert (Hx : x < m) by (rewrite Ex; destruct (N.leb_spec m (0 + 1)); lia).
  (* the m identifiers in use are all those below m *)
  assert (Hincl : incl (map N.of_nat (seq 0 (N.to_nat m))) used).
  { apply NoDup_length_incl; [exact HN2| |].
    - rewrite map_length, seq_length. unfold lenN in Hlen. lia.
    - intros y Hy. specialize (HC y (or_introl Hy)). unfold created in HC. apply in_map_iff. exists (N.to_nat y). split; [lia|]. apply in_seq. lia. }
  apply Hincl. apply in_map_iff. exists (N.to_nat x). split; [lia|]. apply in_seq. lia.
Qed.
Print Assumptions C27_ids_exhausted.

(** So without the proviso the claim is false: delta2's group ids (255 of them). *)
Fixpoint ids_gets (n : nat) (s : idstore) : list N :=
  match n with O => [] | S k => let '(x, s') := ids_get (fun _ => O) s in x :: ids_gets k s' end.
Theorem C27_ids_in_use_refuted : exists n x, (n < 256)%nat /\ nth_error (ids_gets 256 (ids_new 255)) n = Some x /\
  nth_error (ids_gets 256 (ids_new 255)) 255 = Some x.
Proof. exists 0%nat, 1. split; [lia|]. split; vm_compute; reflexivity. Qed.
Print Assumptions C27_ids_in_use_refuted.

Example C27_example : exists s, ids_reach 3 s [1; 2] /\ ids_get (fun _ => 5%nat) s = (0, mk_ids [] 0 3).
Proof.
  exists (mk_ids [] 2 3). split; [|reflexivity].
  pose (s1 := snd (ids_get (fun _ => O) (ids_new 3))). pose (s2 := snd (ids_get (fun _ => O) s1)).
  assert (H1 : ids_reach 3 s1 [1]) by (apply (ir_get 3 (fun _ => O) (ids_new 3) []); [constructor|reflexivity|reflexivity]).
  assert (H2 : ids_reach 3 s2 [2; 1]) by (apply (ir_get 3 (fun _ => O) s1 [1]); [exact H1|reflexivity|reflexivity]).
  pose proof (ir_done 3 s2 [2; 1] 1 H2 ltac:(cbn; tauto)) as H3.
  apply (ir_get 3 (fun _ => O) (ids_done s2 1) [2]); [exact H3|reflexivity|reflexivity].
Qed.

(** ** C32: SPDY/3 header blocks *)

Lemma Ok_inj {A} (a b : A) : Ok a = Ok b -> a = b.
Proof. congruence. Qed.

Lemma pack_L_len n s : pack_L n = Ok s -> length s = 4%nat /\ n < 2 ^ 32.
Proof. unfold pack_L. destruct (N.ltb_spec n (2 ^ 32)) as [H|H]; [|discriminate]. intros E. apply Ok_inj in E. rewrite <- E. split; [reflexivity|exact H]. Qed.

Lemma pack_L_inj a b s : pack_L a = Ok s -> pack_L b = Ok s -> a = b.
Proof.
  unfold pack_L. destruct (N.ltb_spec a (2 ^ 32)) as [Ha|]; [|discriminate]. destruct (N.ltb_spec b (2 ^ 32)) as [Hb|]; [|discriminate].
  intros E1 E2. apply Ok_inj in E1, E2. rewrite <- E1 in E2. rename E2 into E. clear E1.
  assert (L : forall x, N.land x 255 = x mod 256) by (intros x; change 255 with (N.ones 8); now rewrite N.land_ones).
  rewrite !L, !N.shiftr_div_pow2 in E. change (2 ^ 24) with (2 ^ 8 * (2 ^ 8 * 2 ^ 8)) in E. change (2 ^ 16) with (2 ^ 8 * 2 ^ 8) in E. change (2 ^ 8) with 256 in E.
  rewrite <- !N.div_div in E by lia.
  assert (E3 := f_equal (fun l => nth 0 l 0) E). assert (E2 := f_equal (fun l => nth 1 l 0) E).
  assert (E1 := f_equal (fun l => nth 2 l 0) E). assert (E0 := f_equal (fun l => nth 3 l 0) E). cbn [nth] in E0, E1, E2, E3. clear E. symmetry in E0, E1, E2, E3.
  assert (Q : forall x y, x / 256 = y / 256 -> x mod 256 = y mod 256 -> x = y) by (intros x y; lia).
  apply Q; [|exact E0]. apply Q; [|exact E1]. now apply Q.
Qed.

Lemma to_ascii_ok s t : to_ascii s = Ok t -> t = s.
Proof. unfold to_ascii. destruct (forallb _ s); [congruence|discriminate]. Qed.

Lemma app_inj_len {A} (a b c d : list A) : a ++ b = c ++ d -> length a = length c -> a = c /\ b = d.
Proof.
  revert c. induction a as [|x a IH]; intros [|y c] E H; cbn in *; try lia; [auto|]. injection E as -> E.
  destruct (IH c E) as [-> ->]; [lia|]. auto.
Qed.

Theorem C32_spdy3_block_determines_headers : forall h1 h2 s, spdy3_format h1 = Ok s -> spdy3_format h2 = Ok s -> h1 = h2.
Proof.
  induction h1 as [|[k v] h1 IH]; intros h2 s E1 E2.
  - cbn in E1. injection E1 as <-. destruct h2 as [|[k v] h2]; [reflexivity|]. cbn [spdy3_format] in E2.
    inv_ok. destruct (pack_L_len _ _ H). destruct x; [cbn in H4; lia|discriminate].
  - cbn [spdy3_format] in E1. inv_ok. rename x into lk, x0 into k', x1 into lv, x2 into v', x3 into r.
    destruct h2 as [|[k2 v2] h2].
    { cbn in E2. injection E2 as E2. destruct (pack_L_len _ _ H) as [HL _]. apply (f_equal (@length N)) in E2. rewrite app_length in E2. cbn in E2. lia. }
    cbn [spdy3_format] in E2. apply bind_ok in E2 as (lk2 & A1 & E2). apply bind_ok in E2 as (k2' & A2 & E2). apply bind_ok in E2 as (lv2 & A3 & E2).
    apply bind_ok in E2 as (v2' & A4 & E2). apply bind_ok in E2 as (r2 & A5 & E2).
    assert (E : lk2 ++ k2' ++ lv2 ++ v2' ++ r2 = lk ++ k' ++ lv ++ v' ++ r) by congruence. clear E2.
    apply to_ascii_ok in H0, H2, A2, A4. subst k' v' k2' v2'.
    destruct (pack_L_len _ _ H) as [L1 _]. destruct (pack_L_len _ _ A1) as [L2 _]. destruct (pack_L_len _ _ H1) as [L3 _]. destruct (pack_L_len _ _ A3) as [L4 _].
    apply app_inj_len in E as [E0 E]; [|congruence]. subst lk2. pose proof (pack_L_inj _ _ _ H A1) as EL. unfold lenN in EL.
    apply app_inj_len in E as [E0 E]; [|lia]. subst k2. apply app_inj_len in E as [E0 E]; [|congruence]. subst lv2.
    pose proof (pack_L_inj _ _ _ H1 A3) as EL2. unfold lenN in EL2. apply app_inj_len in E as [E0 E]; [|lia]. subst v2 r2.
    f_equal. exact (IH h2 r H3 A5).
Qed.
Print Assumptions C32_spdy3_block_determines_headers.

(** Every list of ASCII headers has a block. *)
Theorem C32_spdy3_format_total : forall h,
  Forall (fun kv => (forall c, In c (fst kv ++ snd kv) -> c < 128) /\ lenN (fst kv) < 2 ^ 32 /\ lenN (snd kv) < 2 ^ 32) h ->
  exists s, spdy3_format h = Ok s.
Proof.
  assert (A : forall s, (forall c, In c s -> c < 128) -> to_ascii s = Ok s).
  { intros s H. unfold to_ascii. replace (forallb (fun c => c <? 128) s) with true; [reflexivity|]. symmetry. apply forallb_forall. intros c Hc. apply N.ltb_lt. auto. }
  assert (P : forall n, n < 2 ^ 32 -> exists s, pack_L n = Ok s) by (intros n H; unfold pack_L; destruct (N.ltb_spec n (2 ^ 32)); [eauto|lia]).
  induction 1 as [|[k v] h (H1 & H2 & H3) _ (s & IH)]; [exists []; reflexivity|]. cbn [fst snd] in *. cbn [spdy3_format].
  destruct (P _ H2) as [lk ->]. destruct (P _ H3) as [lv ->]. cbn [bind]. rewrite (A k) by (intros c Hc; apply H1, in_or_app; now left). cbn [bind].
  rewrite (A v) by (intros c Hc; apply H1, in_or_app; now right). cbn [bind]. rewrite IH. cbn [bind]. eauto.
Qed.
Print Assumptions C32_spdy3_format_total.

(** The frame: twelve octets in clear, then the deflated rest; with an injective
    deflate, frames of at least twelve raw octets determine the headers. *)
Theorem C32_spdy3_frame : forall deflate h1 h2 f s1 s2,
  (forall x y, deflate x = deflate y -> x = y) ->
  spdy3_format h1 = Ok s1 -> spdy3_format h2 = Ok s2 -> (12 <= length s1)%nat -> (12 <= length s2)%nat ->
  spdy3_compress deflate h1 = Ok f -> spdy3_compress deflate h2 = Ok f -> firstn 12 f = firstn 12 s1 /\ h1 = h2.
Proof.
  intros deflate h1 h2 f s1 s2 Hinj E1 E2 L1 L2 F1 F2. unfold spdy3_compress in *. rewrite E1 in F1. rewrite E2 in F2. cbn [bind] in *.
  assert (G1 : f = firstn 12 s1 ++ deflate (skipn 12 s1)) by congruence.
  assert (G2 : f = firstn 12 s2 ++ deflate (skipn 12 s2)) by congruence. clear F1 F2.
  assert (A1 : length (firstn 12 s1) = 12%nat) by (rewrite firstn_length; lia).
  assert (A2 : length (firstn 12 s2) = 12%nat) by (rewrite firstn_length; lia).
  split.
  - rewrite G1. rewrite firstn_app, A1, Nat.sub_diag, firstn_O, app_nil_r. rewrite firstn_firstn. f_equal.
  - assert (E : firstn 12 s1 ++ deflate (skipn 12 s1) = firstn 12 s2 ++ deflate (skipn 12 s2)) by congruence.
    apply app_inj_len in E as [E3 E4]; [|congruence]. apply Hinj in E4.
    apply (C32_spdy3_block_determines_headers h1 h2 s1); [exact E1|]. rewrite E2. f_equal.
    rewrite <- (firstn_skipn 12 s1), <- (firstn_skipn 12 s2). congruence.
Qed.
Print Assumptions C32_spdy3_frame.

Example C32_example : spdy3_format [(lit "host", lit "a"); (lit "b", [])] = Ok ([0;0;0;4] ++ lit "host" ++ [0;0;0;1] ++ lit "a" ++ [0;0;0;1] ++ lit "b" ++ [0;0;0;0]).
Proof. vm_compute. reflexivity. Qed.

(** ** C41: bohe integers *)

(** What a reader of such integers does: seven bits per octet, least significant
    first, the top bit says that more follow. *)
Fixpoint uvarint_read (s : str) : option (N * str) :=
  match s with
  | [] => None
  | c :: r =>
      if c <? 128 then Some (c, r)
      else match uvarint_read r with Some (v, r') => Some ((c - 128) + 128 * v, r') | None => None end
  end.

Lemma uvarint_octet v : N.lor (N.land v 127) (if N.shiftr v 7 =? 0 then 0 else 128) = v mod 128 + (if v / 128 =? 0 then 0 else 128).
Proof.
  rewrite shiftr7, land127. pose proof (N.mod_upper_bound v 128 ltac:(lia)).
  destruct (v / 128 =? 0); [now rewrite N.lor_0_r, N.add_0_r|]. rewrite N.lor_comm, lor128 by assumption. lia.
Qed.

Lemma uvarint_loop_ok : forall fuel v, v < 128 ^ N.of_nat fuel -> (1 <= fuel)%nat -> exists s, uvarint_loop fuel v = Ok s /\ is_bytes s /\
  forall r, uvarint_read (s ++ r) = Some (v, r).
Proof.
  induction fuel as [|f IH]; intros v Hv Hf; [lia|]. cbn [uvarint_loop]. rewrite uvarint_octet, shiftr7.
  pose proof (N.mod_upper_bound v 128 ltac:(lia)) as Hm. pose proof (N.div_mod v 128 ltac:(lia)) as Hd.
  destruct (N.eqb_spec (v / 128) 0) as [E|E].
  - exists [v mod 128 + 0]. split; [reflexivity|]. split; [repeat constructor; lia|]. intros r. cbn [app uvarint_read].
    destruct (N.ltb_spec (v mod 128 + 0) 128); [|lia]. do 2 f_equal. lia.
  - rewrite Nat2N.inj_succ, N.pow_succ_r' in Hv.
    assert (Hf1 : (1 <= f)%nat) by (destruct f; [change (128 ^ N.of_nat 0) with 1 in Hv; lia|lia]).
    destruct (IH (v / 128)) as (s & Es & Hs & Hr); [apply N.div_lt_upper_bound; lia|exact Hf1|]. rewrite Es. cbn [bind].
    exists (v mod 128 + 128 :: s). split; [reflexivity|]. split; [constructor; [lia|exact Hs]|]. intros r. cbn [app uvarint_read].
    destruct (N.ltb_spec (v mod 128 + 128) 128); [lia|]. rewrite Hr. do 2 f_equal. lia.
Qed.

Lemma uvarint_fuel v : v < 128 ^ N.of_nat (S (N.to_nat (N.size v))).
Proof.
  pose proof (size_nat_bound v) as H. eapply N.lt_le_trans; [exact H|]. change 128 with (2 ^ 7). rewrite <- N.pow_mul_r. apply N.pow_le_mono_r; [lia|].
  lia.
Qed.

(** The loop ends, emits octets, and a reader gets the number back and stops
    right behind it, whatever follows. *)
Theorem C41_uvarint_reads_back : forall v, exists s, uvarint_loop (S (N.to_nat (N.size v))) v = Ok s /\ is_bytes s /\
  forall r, uvarint_read (s ++ r) = Some (v, r).
Proof. intros v. apply uvarint_loop_ok; [apply uvarint_fuel|lia]. Qed.
Print Assumptions C41_uvarint_reads_back.

Lemma uvarint_mono : forall f v s, uvarint_loop f v = Ok s -> forall g, (f <= g)%nat -> uvarint_loop g v = Ok s.
Proof.
  induction f as [|f IH]; intros v s E g Hg; [discriminate|]. destruct g as [|g]; [lia|]. cbn [uvarint_loop] in *.
  destruct (N.shiftr v 7 =? 0); [exact E|]. apply bind_ok in E as (r & E1 & E2). rewrite (IH _ _ E1 g) by lia. exact E2.
Qed.

(** So encodings are uniquely decodable: neither is a prefix of the other. *)
Theorem C41_uvarint_unique : forall f g a b sa sb ra rb, uvarint_loop f a = Ok sa -> uvarint_loop g b = Ok sb ->
  sa ++ ra = sb ++ rb -> a = b /\ ra = rb.
Proof.
  intros f g a b sa sb ra rb Ea Eb E.
  destruct (C41_uvarint_reads_back a) as (ta & Fa & _ & Ra). destruct (C41_uvarint_reads_back b) as (tb & Fb & _ & Rb).
  assert (ta = sa).
  { pose proof (uvarint_mono _ _ _ Ea (Nat.max f (S (N.to_nat (N.size a)))) ltac:(lia)). pose proof (uvarint_mono _ _ _ Fa (Nat.max f (S (N.to_nat (N.size a)))) ltac:(lia)). congruence. }
  assert (tb = sb).
  { pose proof (uvarint_mono _ _ _ Eb (Nat.max g (S (N.to_nat (N.size b)))) ltac:(lia)). pose proof (uvarint_mono _ _ _ Fb (Nat.max g (S (N.to_nat (N.size b)))) ltac:(lia)). congruence. }
  subst ta tb. specialize (Ra ra). specialize (Rb rb). rewrite E in Ra. rewrite Rb in Ra. injection Ra as -> ->. auto.
Qed.
Print Assumptions C41_uvarint_unique.

(** Lists of values (several in one header): the octets determine the list, up
    to negative numbers being sent as zero. *)
Theorem C41_uvarint_list_unique : forall f g a b s, uvarint_list f a = Ok s -> uvarint_list g b = Ok s ->
  map (Z.max 0) a = map (Z.max 0) b.
Proof.
  induction a as [|x a IH]; intros [|y b] s Ea Eb; [reflexivity| | |].
  - cbn in Ea. injection Ea as <-. cbn [uvarint_list] in Eb. apply bind_ok in Eb as (u & E1 & Eb). apply bind_ok in Eb as (w & _ & Eb).
    destruct (C41_uvarint_unique _ _ _ _ _ _ [] [] E1 E1 eq_refl). injection Eb as Eb. apply app_eq_nil in Eb as [-> _].
    destruct g; [discriminate|]. cbn [uvarint_loop] in E1. destruct (N.shiftr (Z.to_N (Z.max 0 y)) 7 =? 0); [discriminate|]. apply bind_ok in E1 as (? & _ & E1). discriminate.
  - cbn in Eb. injection Eb as <-. cbn [uvarint_list] in Ea. apply bind_ok in Ea as (u & E1 & Ea). apply bind_ok in Ea as (w & _ & Ea).
    injection Ea as Ea. apply app_eq_nil in Ea as [-> _].
    destruct f; [discriminate|]. cbn [uvarint_loop] in E1. destruct (N.shiftr (Z.to_N (Z.max 0 x)) 7 =? 0); [discriminate|]. apply bind_ok in E1 as (? & _ & E1). discriminate.
  - cbn [uvarint_list] in Ea, Eb. apply bind_ok in Ea as (u & E1 & Ea). apply bind_ok in Ea as (w & E2 & Ea).
    apply bind_ok in Eb as (u' & F1 & Eb). apply bind_ok in Eb as (w' & F2 & Eb).
    assert (E : u ++ w = u' ++ w') by congruence. destruct (C41_uvarint_unique _ _ _ _ _ _ _ _ E1 F1 E) as [Hxy ->].
    cbn [map]. rewrite (IH b w' E2 F2). f_equal. lia.
Qed.
Print Assumptions C41_uvarint_list_unique.

Example C41_example : uvarint_loop 5 300 = Ok [172; 2] /\ uvarint_read [172; 2; 7; 7] = Some (300, [7; 7]).
Proof. split; vm_compute; reflexivity. Qed.

(** ** C43: the table search of delta2_bohe *)

(** What it finds is right ... *)
Lemma b_find_inner_ok ring val i e : nth_error ring i = Some e -> forall j, (1 <= j)%nat ->
  b_find_inner ring val i j = if str_eqb (snd e) val then Some e else None.
Proof.
  intros E. induction j as [|j IH]; intros Hj; [lia|]. cbn [b_find_inner]. rewrite E.
  destruct (str_eqb (snd e) val) eqn:Ev; [reflexivity|]. destruct j; [reflexivity|]. rewrite IH by lia. reflexivity.
Qed.

Theorem C43_find_sound : forall ring key val ke ve, b_find ring key val = (ke, ve) ->
  (forall e, ke = Some e -> In e ring /\ fst e = key) /\ (forall e, ve = Some e -> In e ring /\ e = (key, val)).
Proof.
  intros ring key val ke ve. unfold b_find. generalize (length ring - 1)%nat as i.
  induction i as [|i IH]; intros E; cbn [b_find_loop] in E; [injection E as <- <-; split; discriminate|].
  destruct (nth_error ring (S i)) as [x|] eqn:En; [|injection E as <- <-; split; discriminate].
  destruct (str_eqb_spec (fst x) key) as [Ek|Ek]; [|apply IH; exact E].
  rewrite (b_find_inner_ok ring val (S i) x En) in E by lia. injection E as <- <-.
  pose proof (nth_error_In _ _ En) as Hin. split.
  - intros e He. assert (x = e) by congruence. subst e. auto.
  - intros e He. destruct (str_eqb_spec (snd x) val) as [Ev|Ev]; [|discriminate]. assert (x = e) by congruence. subst e. split; [exact Hin|].
    destruct x; cbn in *; congruence.
Qed.
Print Assumptions C43_find_sound.

(** ... the pair is found when it is the newest entry with its key and not the
    oldest entry of the table ... *)
Theorem C43_find_newest : forall a b c key val, (forall e, In e c -> fst e <> key) ->
  b_find ((a :: b) ++ (key, val) :: c) key val = (Some (key, val), Some (key, val)).
Proof.
  intros a b c key val Hc. unfold b_find. set (ring := ((a :: b) ++ (key, val) :: c) : list kvpair).
  change (b_find_loop ring key val (length ring - 1) = (Some (key, val), Some (key, val))).
  assert (Hl : (length ring - 1 = length (a :: b) + length c)%nat) by (unfold ring; rewrite app_length; cbn [length]; lia). rewrite Hl.
  assert (G : forall n, (n <= length c)%nat -> b_find_loop ring key val (length (a :: b) + n) = (Some (key, val), Some (key, val))).
  { induction n as [|n IH]; intros Hn.
    - rewrite Nat.add_0_r. cbn [length b_find_loop].
      assert (E : nth_error ring (S (length b)) = Some (key, val)).
      { unfold ring. cbn [app nth_error]. rewrite nth_error_app2 by lia. now rewrite Nat.sub_diag. }
      rewrite E. cbn [fst]. rewrite str_eqb_refl. rewrite (b_find_inner_ok ring val _ _ E) by lia. cbn [snd]. now rewrite str_eqb_refl.
    - rewrite Nat.add_succ_r. cbn [b_find_loop].
      destruct (nth_error c n) as [x|] eqn:Ec; [|apply nth_error_None in Ec; lia].
      assert (E : nth_error ring (S (length (a :: b) + n)) = Some x).
      { unfold ring. rewrite nth_error_app2 by lia. replace (S (length (a :: b) + n) - length (a :: b))%nat with (S n) by lia. exact Ec. }
      rewrite E. destruct (str_eqb_spec (fst x) key) as [C|_]; [destruct (Hc x (nth_error_In _ _ Ec) C)|]. apply IH. lia. }
  apply G. lia.
Qed.
Print Assumptions C43_find_newest.

(** ... but not otherwise: a table of one entry, and a table with a newer entry
    for the same key. *)
Theorem C43_find_complete_refuted :
  (exists ring key val, In (key, val) ring /\ b_find ring key val = (None, None)) /\
  (exists ring key val e, In (key, val) (tl ring) /\ b_find ring key val = (Some e, None)).
Proof.
  split.
  - exists [(lit "a", lit "1")], (lit "a"), (lit "1"). split; [now left|reflexivity].
  - exists [(lit "x", lit "0"); (lit "a", lit "1"); (lit "a", lit "2")], (lit "a"), (lit "1"), (lit "a", lit "2"). split; [now left|vm_compute; reflexivity].
Qed.
Print Assumptions C43_find_complete_refuted.

Example C43_example : b_find [(lit "x", lit "0"); (lit "a", lit "1"); (lit "b", lit "2")] (lit "a") (lit "1") = (Some (lit "a", lit "1"), Some (lit "a", lit "1")).
Proof. vm_compute. reflexivity. Qed.
