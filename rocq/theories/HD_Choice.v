(** * headerdiff: what the encoder sends, described without its data structures. *)
From Coq Require Import String List NArith ZArith Bool Arith Lia Permutation.
From Verif Require Import PyBase NBits PyStr HD_Model HD_Int HD_Spec HD_Sim.
Import ListNotations.
Open Scope N_scope.
Open Scope py_scope.

(** ** Specification *)

(** A header that both ends remember: messages since it was last stored or sent
    by index, and deltas made from it. *)
Record entry := mk_entry { t_name : str; t_value : str; t_age : nat; t_uses : nat }.
(** What both ends remember: the headers by index, the names by number. *)
Record view := mk_view { w_tbl : list entry; w_req : list str; w_res : list str }.
Definition names (q : bool) (w : view) : list str := if q then w_req w else w_res w.
Definition octets_held (w : view) : Z := fold_right (fun e n => (zlen (t_value e) + n)%Z) 0%Z (w_tbl w).
Definition at_start : view := mk_view [] REG_REQ REG_RES.

(** Is the header remembered? *)
Inductive storing := Forgotten | Added | Replacing (i : nat).
(** What is sent for a header. *)
Inductive item := Indexed (i : nat) | Literal (st : storing) (n v : str) | Delta (st : storing) (i k : nat) (rest : str).

Section Spec.
  Context (cfg : hcfg).

  (** How many characters of [v] are taken from [iv]. *)
  Definition common (v iv : str) (k : nat) : Prop := (k <= length v)%nat /\ (k <= length iv)%nat /\ firstn k v = firstn k iv.
  Definition allowed (v : str) (k : nat) : Prop :=
    match h_dtype cfg with DBound limits => k = O \/ exists j c, k = S j /\ nth_error v j = Some c /\ In c limits | _ => True end.
  Definition shares (v iv : str) (k : nat) : Prop :=
    common v iv k /\ allowed v k /\ forall k', common v iv k' -> allowed v k' -> (k' <= k)%nat.

  Definition eligible (n : str) (x : entry) : Prop :=
    t_name x = n /\ match h_dtype cfg with DMax m => (Z.of_nat (t_uses x) < m)%Z | _ => True end.

  Definition room (w : view) (more : Z) : Prop := (octets_held w + more < h_max cfg)%Z.
  Definition novel (q : bool) (more : Z) : Prop := q = false \/ (10000 <= h_max cfg)%Z \/ (15 < more)%Z.

  (** The header sent as a difference to entry [i] with value [iv]. *)
  Definition stores_delta (q : bool) (w : view) (v iv : str) (i : nat) (st : storing) : Prop :=
    let more := (zlen v - zlen iv)%Z in
    (novel q more /\ room w (zlen v) /\ st = Added) \/
    (~ (novel q more /\ room w (zlen v)) /\ room w more /\ st = Replacing i) \/
    (~ (novel q more /\ room w (zlen v)) /\ ~ room w more /\ st = Forgotten).

  (** The header sent in full: it can replace a header not sent in this and the previous message. *)
  Definition replaceable (w : view) (v : str) (x : entry) : Prop := (1 < t_age x)%nat /\ room w (zlen v - zlen (t_value x)).
  Definition stores_literal (w : view) (v : str) (st : storing) : Prop :=
    (room w (zlen v) /\ st = Added) \/
    (~ room w (zlen v) /\ exists i x, nth_error (w_tbl w) i = Some x /\ replaceable w v x /\
        (forall y, In y (w_tbl w) -> replaceable w v y -> (t_age y <= t_age x)%nat) /\ st = Replacing i) \/
    (~ room w (zlen v) /\ (forall y, In y (w_tbl w) -> ~ replaceable w v y) /\ st = Forgotten).

  Inductive chosen (q : bool) (w : view) (n v : str) : item -> Prop :=
  | chosen_indexed i x : nth_error (w_tbl w) i = Some x -> t_name x ++ t_value x = n ++ v -> chosen q w n v (Indexed i)
  | chosen_path : (forall x, In x (w_tbl w) -> t_name x ++ t_value x <> n ++ v) -> h_delta cfg = false -> n = lit ":path" ->
      chosen q w n v (Literal Forgotten n v)
  | chosen_delta i x k st : (forall x, In x (w_tbl w) -> t_name x ++ t_value x <> n ++ v) -> h_delta cfg = true ->
      nth_error (w_tbl w) i = Some x -> eligible n x -> shares v (t_value x) k -> (1 < k)%nat ->
      (forall y k', In y (w_tbl w) -> eligible n y -> shares v (t_value y) k' -> (k' <= k)%nat) ->
      stores_delta q w v (t_value x) i st ->
      chosen q w n v (Delta st i k (skipn k v))
  | chosen_literal st : (forall x, In x (w_tbl w) -> t_name x ++ t_value x <> n ++ v) ->
      (if h_delta cfg then forall y k', In y (w_tbl w) -> eligible n y -> shares v (t_value y) k' -> (k' <= 1)%nat else n <> lit ":path") ->
      stores_literal w v st ->
      chosen q w n v (Literal st n v).

  (** What both ends remember afterwards. *)
  Definition stored (n v : str) (st : storing) (t : list entry) : list entry :=
    match st with
    | Forgotten => t
    | Added => t ++ [mk_entry n v 0 0]
    | Replacing i => update_nth i (fun _ => mk_entry n v 0 0) t
    end.
  Definition learnt (n : str) (l : list str) : list str := if existsb (str_eqb n) l then l else l ++ [n].
  Definition afterwards (q : bool) (w : view) (n v : str) (it : item) : view :=
    match it with
    | Indexed i => mk_view (update_nth i (fun x => mk_entry (t_name x) (t_value x) 0 (t_uses x)) (w_tbl w)) (w_req w) (w_res w)
    | Delta st i _ _ =>
        mk_view (stored n v st (update_nth i (fun x => mk_entry (t_name x) (t_value x) (t_age x) (S (t_uses x))) (w_tbl w))) (w_req w) (w_res w)
    | Literal st _ _ =>
        mk_view (stored n v st (w_tbl w)) (if q then learnt n (w_req w) else w_req w) (if q then w_res w else learnt n (w_res w))
    end.

  (** The octets of an item. *)
  Definition flags (st : storing) : N := match st with Forgotten => 0 | Added => 32 | Replacing _ => 48 end.
  Definition bits (st : storing) : N := match st with Forgotten => 5 | _ => 4 end.
  Fixpoint position (n : str) (l : list str) : option nat :=
    match l with [] => None | m :: r => if str_eqb n m then Some O else option_map S (position n r) end.
  Definition item_octets (q : bool) (w : view) (it : item) : res str :=
    match it with
    | Indexed i => if (i <? 64)%nat then Ok [128 + N.of_nat i] else hd_write_int 192 14 (N.of_nat (i - 64))
    | Delta st i k rest =>
        let* a := hd_write_int (64 + flags st) (bits st) (N.of_nat i) in
        let* b := hd_write_int (64 + flags st) 0 (N.of_nat k) in
        let* c := h_write cfg rest in Ok (a ++ b ++ c)
    | Literal st n v =>
        let* a := match position n (names q w) with
                  | Some i => hd_write_int (flags st) (bits st) (N.of_nat i + 1)
                  | None => let* a := hd_write_int (flags st) (bits st) 0 in let* b := h_write cfg n in Ok (a ++ b)
                  end in
        let* b := match st with Replacing i => hd_write_int (flags st) 0 (N.of_nat i) | _ => Ok [] end in
        let* c := h_write cfg v in Ok (a ++ b ++ c)
    end.

  (** The headers of a message, one after the other. *)
  Inductive says (q : bool) : view -> list hdr -> str -> view -> Prop :=
  | says_nothing w : says q w [] [] w
  | says_header w n v it s hs s' w' : chosen q w n v it -> item_octets q w it = Ok s -> says q (afterwards q w n v it) hs s' w' ->
      says q w ((n, v) :: hs) (s ++ s') w'.

  (** A new message: every header is one message older. *)
  Definition older (w : view) : view :=
    mk_view (map (fun x => mk_entry (t_name x) (t_value x) (S (t_age x)) (t_uses x)) (w_tbl w)) (w_req w) (w_res w).

  (** Messages and their frames: two octets of length, six zeros, the number of headers, the headers. *)
  Inductive conversation : view -> list msg -> list str -> view -> Prop :=
  | conv_nothing w : conversation w [] [] w
  | conv_message w q hs s w1 ms f fs w2 len : says q (older w) hs s w1 -> lenN hs < 256 -> pack_H (1 + lenN s) = Ok len ->
      f = len ++ [0; 0; 0; 0; 0; 0] ++ lenN hs :: s -> conversation w1 ms fs w2 -> conversation w ((q, hs) :: ms) (f :: fs) w2.
End Spec.

(** ** The encoder's table and the view *)

Definition seen (h : ih) : entry := mk_entry (i_name h) (i_value h) (i_age h) (Z.to_nat (i_usage h)).
Record erel (te : list ih) (tl : list entry) : Prop := {
  er_len : length te = length tl;
  er_nth : forall h, In h te -> nth_error tl (i_index h) = Some (seen h);
  er_keys : NoDup (map i_full te);
  er_idx : NoDup (map i_index te);
  er_usage : forall h, In h te -> (0 <= i_usage h)%Z }.

Lemma erel_back te tl i x : erel te tl -> nth_error tl i = Some x -> exists h, In h te /\ i_index h = i /\ seen h = x.
Proof.
  intros [L N K I U] H. assert (Hi : (i < length tl)%nat) by (apply nth_error_Some; congruence).
  assert (In i (map i_index te)) as Hin.
  { apply (NoDup_length_incl I (l' := seq 0 (length tl))); [now rewrite seq_length, map_length, L| |apply in_seq; lia].
    intros j Hj. apply in_map_iff in Hj as (h & <- & Hh). specialize (N h Hh). apply in_seq. split; [lia|]. cbn. apply nth_error_Some. congruence. }
  apply in_map_iff in Hin as (h & E & Hh). exists h. split; [exact Hh|]. split; [exact E|]. specialize (N h Hh). congruence.
Qed.
Lemma erel_in te tl x : erel te tl -> In x tl -> exists h, In h te /\ seen h = x.
Proof. intros R H. apply In_nth_error in H as [i H]. destruct (erel_back te tl i x R H) as (h & A & _ & B). eauto. Qed.
Lemma erel_seen te tl h : erel te tl -> In h te -> In (seen h) tl.
Proof. intros R H. eapply nth_error_In. now apply (er_nth _ _ R). Qed.

(** *** Changes of one entry *)
Lemma touch_keys f full te : (forall h, i_name (f h) = i_name h /\ i_value (f h) = i_value h /\ i_index (f h) = i_index h) ->
  map i_full (touch f full te) = map i_full te /\ map i_index (touch f full te) = map i_index te.
Proof.
  intros Hf. unfold touch. rewrite !map_map. split; apply map_ext; intros h; destruct (str_eqb (i_full h) full); try reflexivity.
  - unfold i_full. now destruct (Hf h) as (-> & -> & _).
  - apply Hf.
Qed.

Lemma key_inj te h h' : NoDup (map i_full te) -> In h te -> In h' te -> i_full h = i_full h' -> h = h'.
Proof.
  induction te as [|x te IH]; [contradiction|]. cbn [map]. intros N Hh Hh' E. inversion N as [|? ? N1 N2]; subst. destruct Hh as [<-|Hh], Hh' as [<-|Hh']; auto.
  - exfalso. apply N1. rewrite E. now apply in_map.
  - exfalso. apply N1. rewrite <- E. now apply in_map.
Qed.

Lemma erel_touch f g te tl ref : (forall h, i_name (f h) = i_name h /\ i_value (f h) = i_value h /\ i_index (f h) = i_index h) ->
  (0 <= i_usage ref -> 0 <= i_usage (f ref))%Z -> ((0 <= i_usage ref)%Z -> seen (f ref) = g (seen ref)) -> In ref te -> erel te tl ->
  erel (touch f (i_full ref) te) (update_nth (i_index ref) g tl).
Proof.
  intros Hf Hu Hg Hr [L N K I U]. destruct (touch_keys f (i_full ref) te Hf) as [K1 K2]. split.
  - unfold touch. now rewrite map_length, update_nth_length.
  - intros h Hh. apply in_map_iff in Hh as (x & <- & Hx). destruct (str_eqb_spec (i_full x) (i_full ref)) as [E|E].
    + assert (x = ref) by (eapply key_inj; eauto). subst x. destruct (Hf ref) as (_ & _ & ->). rewrite Hg by auto. apply update_nth_same. auto.
    + rewrite update_nth_other; [auto|]. intros C. apply E. f_equal.
      symmetry. revert C. clear - I Hx Hr. intros C.
      induction te as [|y te IH]; [contradiction|]. cbn [map] in I. inversion I as [|? ? I1 I2]; subst. destruct Hx as [<-|Hx], Hr as [<-|Hr]; auto.
      * exfalso. apply I1. rewrite <- C. now apply in_map.
      * exfalso. apply I1. rewrite C. now apply in_map.
  - now rewrite K1.
  - now rewrite K2.
  - intros h Hh. apply in_map_iff in Hh as (x & <- & Hx). destruct (str_eqb_spec (i_full x) (i_full ref)) as [E|E]; [|auto].
    assert (x = ref) by (eapply key_inj; eauto). subst x. auto.
Qed.

Lemma erel_add te tl n v : erel te tl -> (forall h, In h te -> i_full h <> n ++ v) ->
  erel (te ++ [new_ih n v (length te)]) (tl ++ [mk_entry n v 0 0]).
Proof.
  intros [L N K I U] Hf. split.
  - rewrite !app_length, L. reflexivity.
  - intros h Hh. apply in_app_or in Hh. destruct Hh as [Hh|[<-|[]]].
    + pose proof (N h Hh) as E. rewrite nth_error_app1; [exact E|]. apply nth_error_Some. congruence.
    + cbn [i_index new_ih]. rewrite L, nth_error_app2, Nat.sub_diag by lia. reflexivity.
  - rewrite map_app. apply NoDup_snoc; [exact K|]. intros Hi. apply in_map_iff in Hi. destruct Hi as (h & E & Hh). exact (Hf h Hh E).
  - rewrite map_app. apply NoDup_snoc; [exact I|]. intros Hi. apply in_map_iff in Hi. destruct Hi as (h & E & Hh). pose proof (N h Hh) as E'.
    assert (i_index h < length tl)%nat by (apply nth_error_Some; congruence). cbn [new_ih i_index] in E. lia.
  - intros h Hh. apply in_app_or in Hh. destruct Hh as [Hh|[<-|[]]]; [auto|cbn; lia].
Qed.

Lemma erel_sub te tl n v ref : erel te tl -> In ref te -> (forall h, In h te -> i_full h <> n ++ v) ->
  erel (filter (fun x => negb (str_eqb (i_full x) (i_full ref))) te ++ [new_ih n v (i_index ref)])
    (update_nth (i_index ref) (fun _ => mk_entry n v 0 0) tl).
Proof.
  intros [L N K I U] Hr Hf. destruct (filter_one ref te K Hr) as (a & b & Ht & ->). subst te. pose proof (N ref Hr) as Er.
  rewrite map_app in K, I. cbn [map] in K, I. apply NoDup_remove in K. apply NoDup_remove in I. destruct K as [K _]. destruct I as [I I'].
  rewrite <- map_app in K, I, I'.
  assert (Hin : forall h, In h (a ++ b) -> In h (a ++ ref :: b)).
  { intros h Hh. apply in_app_or in Hh. apply in_or_app. destruct Hh; [now left|right; now right]. }
  split.
  - rewrite update_nth_length, <- L, !app_length. cbn [length]. lia.
  - intros h Hh. apply in_app_or in Hh. destruct Hh as [Hh|[<-|[]]].
    + rewrite update_nth_other; [apply N; auto|]. intros E. apply I'. rewrite E. now apply in_map.
    + cbn [i_index new_ih]. exact (update_nth_same _ (fun _ => mk_entry n v 0 0) _ _ Er).
  - rewrite (map_app i_full (a ++ b)). apply NoDup_snoc; [exact K|]. intros Hi. apply in_map_iff in Hi.
    destruct Hi as (h & E & Hh). exact (Hf h (Hin h Hh) E).
  - rewrite (map_app i_index (a ++ b)). apply NoDup_snoc; [exact I|exact I'].
  - intros h Hh. apply in_app_or in Hh. destruct Hh as [Hh|[<-|[]]]; [auto|cbn; lia].
Qed.

Lemma erel_older te tl : erel te tl -> erel (map grow_age te) (map (fun x => mk_entry (t_name x) (t_value x) (S (t_age x)) (t_uses x)) tl).
Proof.
  intros [L N K I U]. split.
  - now rewrite !map_length.
  - intros h Hh. apply in_map_iff in Hh as (x & <- & Hx). cbn [grow_age i_index]. now rewrite nth_error_map, (N x Hx).
  - rewrite map_map. exact K.
  - rewrite map_map. exact I.
  - intros h Hh. apply in_map_iff in Hh as (x & <- & Hx). cbn. auto.
Qed.

(** *** Sizes *)
Definition sizes (t : list entry) : Z := fold_right (fun e n => (zlen (t_value e) + n)%Z) 0%Z t.
Lemma sizes_app a b : sizes (a ++ b) = (sizes a + sizes b)%Z.
Proof. induction a as [|x a IH]; cbn [app sizes fold_right]; [reflexivity|]. unfold sizes in *. lia. Qed.
Lemma sizes_update i f t x : nth_error t i = Some x -> sizes (update_nth i f t) = (sizes t - zlen (t_value x) + zlen (t_value (f x)))%Z.
Proof.
  revert i. induction t as [|y t IH]; intros [|i] H; cbn [nth_error update_nth] in *; try discriminate.
  - injection H as ->. unfold sizes. cbn [fold_right]. lia.
  - specialize (IH _ H). unfold sizes in *. cbn [fold_right]. lia.
Qed.
Lemma sizes_older t : sizes (map (fun x => mk_entry (t_name x) (t_value x) (S (t_age x)) (t_uses x)) t) = sizes t.
Proof. induction t as [|y t IH]; cbn [map sizes fold_right t_value]; [reflexivity|]. unfold sizes in IH. now rewrite IH. Qed.

(** *** Names *)
Definition nrel (de : dict nat) (dl : list str) : Prop := de = combine dl (seq 0 (length dl)) /\ NoDup dl.
Lemma position_none n l : position n l = None <-> ~ In n l.
Proof.
  induction l as [|m l IH]; cbn [position In]; [tauto|]. destruct (str_eqb_spec n m) as [->|H]; [split; [discriminate|intros C; exfalso; auto]|].
  destruct (position n l); cbn [option_map]; [split; [discriminate|]|split; [|reflexivity]].
  - intros C. exfalso. apply C. right. apply Decidable.not_not; [destruct (in_dec (list_eq_dec N.eq_dec) n l); [now left|now right]|]. intros D. apply IH in D. discriminate.
  - intros _ [C|C]; [congruence|]. now apply IH in C.
Qed.
Lemma dget_combine n : forall l k, dget (combine l (seq k (length l))) n = option_map (Nat.add k) (position n l).
Proof.
  induction l as [|m l IH]; intros k; cbn [length seq combine dget position]; [reflexivity|]. destruct (str_eqb n m); [cbn; now rewrite Nat.add_0_r|].
  rewrite IH. destruct (position n l); cbn [option_map]; [f_equal; lia|reflexivity].
Qed.
Lemma nrel_get de dl n : nrel de dl -> dget de n = position n dl.
Proof. intros [-> _]. rewrite dget_combine. now destruct (position n dl). Qed.
Lemma dset_absent {V} (d : dict V) k v : dget d k = None -> dset d k v = d ++ [(k, v)].
Proof.
  induction d as [|[k' v'] d IH]; cbn [dget dset app]; [reflexivity|]. destruct (str_eqb k k'); [discriminate|]. intros H. now rewrite IH.
Qed.
Lemma learnt_spec n l : learnt n l = match position n l with Some _ => l | None => l ++ [n] end.
Proof.
  unfold learnt. destruct (existsb (str_eqb n) l) eqn:E.
  - destruct (position n l) eqn:P; [reflexivity|]. exfalso. apply position_none in P. apply existsb_exists in E as (m & Hm & E).
    destruct (str_eqb_spec n m); [subst; auto|discriminate].
  - destruct (position n l) eqn:P; [|reflexivity]. exfalso. assert (~ In n l).
    { intros H. rewrite <- not_true_iff_false in E. apply E. apply existsb_exists. exists n. split; [exact H|apply str_eqb_refl']. }
    apply position_none in H. congruence.
Qed.
Lemma combine_app_eq_len {A B} (a : list A) (b : list B) a' b' : length a = length b -> combine (a ++ a') (b ++ b') = combine a b ++ combine a' b'.
Proof. revert b. induction a as [|x a IH]; intros [|y b] H; cbn in *; try discriminate; [reflexivity|]. f_equal. apply IH. lia. Qed.
Lemma nrel_add de dl n : nrel de dl -> dget de n = None -> nrel (dset de n (length de)) (dl ++ [n]).
Proof.
  intros R H. pose proof R as [E N]. rewrite (nrel_get _ _ _ R) in H. split.
  - rewrite dset_absent by (rewrite (nrel_get _ _ _ R); exact H). rewrite app_length, seq_app, combine_app_eq_len by (now rewrite seq_length).
    cbn [length seq combine]. rewrite E at 1. rewrite E, combine_length, seq_length, Nat.min_id. reflexivity.
  - apply NoDup_snoc; [exact N|]. now apply position_none.
Qed.

(** ** The loops of determineRepresentation *)

Lemma common_prefix_spec v : forall iv, common v iv (common_prefix v iv) /\ forall k, common v iv k -> (k <= common_prefix v iv)%nat.
Proof.
  induction v as [|a v IH]; intros [|b iv]; cbn [common_prefix].
  - split; [repeat split; cbn; lia|]. intros k (H & _). exact H.
  - split; [repeat split; cbn; lia|]. intros k (H & _). exact H.
  - split; [repeat split; cbn; lia|]. intros k (_ & H & _). exact H.
  - destruct (N.eqb_spec a b) as [->|Hne].
    + destruct (IH iv) as ((A & B & C) & D). split; [repeat split; cbn [length firstn]; [lia|lia|congruence]|].
      intros [|k] (A' & B' & C'); [lia|]. cbn [length firstn] in *. apply le_n_S, D. split; [lia|]. split; [lia|congruence].
    + split; [repeat split; cbn; lia|]. intros [|k] (A' & B' & C'); [lia|]. cbn [firstn] in C'. congruence.
Qed.
Lemma common_down v iv k j : common v iv k -> (j <= k)%nat -> common v iv j.
Proof.
  intros (A & B & C) H. split; [lia|]. split; [lia|]. apply (f_equal (firstn j)) in C. rewrite !firstn_firstn in C. now rewrite (Nat.min_l j k H) in C.
Qed.

Lemma last_limit_spec v lim : forall i, (last_limit v lim i <= i)%nat /\
  (last_limit v lim i = O \/ exists j c, last_limit v lim i = S j /\ nth_error v j = Some c /\ In c lim) /\
  forall k, (k <= i)%nat -> (k = O \/ exists j c, k = S j /\ nth_error v j = Some c /\ In c lim) -> (k <= last_limit v lim i)%nat.
Proof.
  induction i as [|i (A & B & C)]; cbn [last_limit].
  - split; [lia|]. split; [now left|]. intros k Hk _. lia.
  - assert (Skip : (forall c, nth_error v i = Some c -> ~ In c lim) ->
      (last_limit v lim i <= S i)%nat /\ (last_limit v lim i = O \/ exists j c, last_limit v lim i = S j /\ nth_error v j = Some c /\ In c lim) /\
      forall k, (k <= S i)%nat -> (k = O \/ exists j c, k = S j /\ nth_error v j = Some c /\ In c lim) -> (k <= last_limit v lim i)%nat).
    { intros Hn. split; [lia|]. split; [exact B|]. intros k Hk Hl. destruct (Nat.eq_dec k (S i)) as [->|]; [|apply C; [lia|exact Hl]].
      destruct Hl as [Hl|(j & c & Ej & Hj & Hc)]; [discriminate|]. injection Ej as <-. exfalso. exact (Hn c Hj Hc). }
    destruct (nth_error v i) as [c|] eqn:E; [|apply Skip; discriminate].
    destruct (existsb (N.eqb c) lim) eqn:X.
    + apply existsb_exists in X as (c' & Hc & X). apply N.eqb_eq in X. subst c'. split; [lia|]. split; [right; exists i, c; auto|]. intros k Hk _. exact Hk.
    + apply Skip. intros c' [= <-] Hc. rewrite <- not_true_iff_false in X. apply X. apply existsb_exists. exists c. split; [exact Hc|apply N.eqb_refl].
Qed.

Lemma shares_prefix cfg v iv : shares cfg v iv (prefix_for cfg v iv).
Proof.
  destruct (common_prefix_spec v iv) as [A B]. unfold shares, allowed, prefix_for, common_prefix_limited. destruct (h_dtype cfg) as [|lim|m]; auto.
  destruct (last_limit_spec v lim (common_prefix v iv)) as (C & D & F). split; [eapply common_down; eauto|]. split; [exact D|]. intros k Hk. apply F. auto.
Qed.
Lemma shares_unique cfg v iv k : shares cfg v iv k -> k = prefix_for cfg v iv.
Proof.
  intros (A & B & C). destruct (shares_prefix cfg v iv) as (A' & B' & C'). specialize (C _ A' B'). specialize (C' _ A B). lia.
Qed.

Definition elig (cfg : hcfg) (n : str) (h : ih) : Prop := i_name h = n /\ match h_dtype cfg with DMax m => (i_usage h < m)%Z | _ => True end.
Lemma elig_seen cfg n h : (0 <= i_usage h)%Z -> elig cfg n h <-> eligible cfg n (seen h).
Proof. intros H. unfold elig, eligible. cbn [seen t_name t_uses]. destruct (h_dtype cfg); rewrite ?Z2Nat.id by exact H; tauto. Qed.

Lemma delta_best cfg n v l : match fold_left (delta_step cfg n v) l (0%nat, None, 0%Z) with
  | (k, None, added) => k = O /\ forall h, In h l -> ~ elig cfg n h
  | (k, Some h, added) => In h l /\ elig cfg n h /\ k = prefix_for cfg v (i_value h) /\ added = (zlen v - zlen (i_value h))%Z /\
      forall h', In h' l -> elig cfg n h' -> (prefix_for cfg v (i_value h') <= k)%nat
  end.
Proof.
  induction l as [|x l IH] using rev_ind; [cbn; split; [reflexivity|contradiction]|]. rewrite fold_left_app. cbn [fold_left].
  destruct (fold_left (delta_step cfg n v) l (0%nat, None, 0%Z)) as [[k r] ad]. unfold delta_step.
  assert (Skip : ~ elig cfg n x -> match (k, r, ad) with
    | (k, None, added) => k = O /\ forall h, In h (l ++ [x]) -> ~ elig cfg n h
    | (k, Some h, added) => In h (l ++ [x]) /\ elig cfg n h /\ k = prefix_for cfg v (i_value h) /\ added = (zlen v - zlen (i_value h))%Z /\
      forall h', In h' (l ++ [x]) -> elig cfg n h' -> (prefix_for cfg v (i_value h') <= k)%nat
    end).
  { intros Hx. destruct r as [h|].
    - destruct IH as (A & B & C & D & F). split; [apply in_or_app; now left|]. split; [exact B|]. split; [exact C|]. split; [exact D|].
      intros h' Hh E. apply in_app_or in Hh as [Hh|[<-|[]]]; [auto|contradiction].
    - destruct IH as (A & B). split; [exact A|]. intros h' Hh. apply in_app_or in Hh as [Hh|[<-|[]]]; auto. }
  destruct (str_eqb_spec (i_name x) n) as [En|En]; [|apply Skip; intros [C _]; auto].
  destruct (match h_dtype cfg with DMax m => (m <=? i_usage x)%Z | _ => false end) eqn:U.
  { apply Skip. intros [_ C]. destruct (h_dtype cfg); try discriminate. apply Z.leb_le in U. lia. }
  assert (Ex : elig cfg n x) by (split; [exact En|]; destruct (h_dtype cfg); auto; apply Z.leb_gt in U; lia).
  destruct (Nat.leb_spec k (prefix_for cfg v (i_value x))) as [Hk|Hk].
  - split; [apply in_or_app; right; now left|]. split; [exact Ex|]. split; [reflexivity|]. split; [reflexivity|].
    intros h' Hh E. apply in_app_or in Hh as [Hh|[<-|[]]]; [|lia]. destruct r as [h|].
    + destruct IH as (_ & _ & _ & _ & F). specialize (F h' Hh E). lia.
    + destruct IH as (_ & F). exfalso. exact (F h' Hh E).
  - destruct r as [h|]; [|destruct IH; lia]. destruct IH as (A & B & C & D & F). split; [apply in_or_app; now left|]. split; [exact B|]. split; [exact C|]. split; [exact D|].
    intros h' Hh E. apply in_app_or in Hh as [Hh|[<-|[]]]; [auto|lia].
Qed.

Definition cand (mx sz : Z) (v : str) (h : ih) : Prop := (1 < i_age h)%nat /\ (zlen v - zlen (i_value h) < mx - sz)%Z.
Lemma lru_best mx sz v l : match fold_left (lru_step mx sz v) l None with
  | None => forall h, In h l -> ~ cand mx sz v h
  | Some h => In h l /\ cand mx sz v h /\ forall h', In h' l -> cand mx sz v h' -> (i_age h' <= i_age h)%nat
  end.
Proof.
  induction l as [|x l IH] using rev_ind; [cbn; auto|]. rewrite fold_left_app. cbn [fold_left].
  set (r := fold_left (lru_step mx sz v) l None) in *. unfold lru_step.
  assert (Skip : (~ cand mx sz v x \/ exists h, r = Some h /\ (i_age x <= i_age h)%nat) -> match r with
    | None => forall h, In h (l ++ [x]) -> ~ cand mx sz v h
    | Some h => In h (l ++ [x]) /\ cand mx sz v h /\ forall h', In h' (l ++ [x]) -> cand mx sz v h' -> (i_age h' <= i_age h)%nat
    end).
  { intros Hx. destruct r as [h|].
    - destruct IH as (A & B & C). split; [apply in_or_app; now left|]. split; [exact B|]. intros h' Hh E. apply in_app_or in Hh as [Hh|[<-|[]]]; [auto|].
      destruct Hx as [Hx|(h0 & [= <-] & Hx)]; [contradiction|exact Hx].
    - intros h' Hh. apply in_app_or in Hh as [Hh|[<-|[]]]; [auto|]. destruct Hx as [Hx|(h0 & Hx & _)]; [exact Hx|discriminate]. }
  destruct (Nat.ltb_spec 1 (i_age x)) as [Ha|Ha]; [|apply Skip; left; intros [C _]; lia].
  destruct (Z.ltb_spec (zlen v - zlen (i_value x)) (mx - sz)) as [Hs|Hs]; [|apply Skip; left; intros [_ C]; lia].
  destruct r as [h|].
  - destruct (Nat.ltb_spec (i_age h) (i_age x)) as [Hl|Hl]; [|apply Skip; right; eauto]. destruct IH as (A & B & C).
    split; [apply in_or_app; right; now left|]. split; [split; assumption|]. intros h' Hh E. apply in_app_or in Hh as [Hh|[<-|[]]]; [specialize (C h' Hh E); lia|lia].
  - split; [apply in_or_app; right; now left|]. split; [split; assumption|]. intros h' Hh E. apply in_app_or in Hh as [Hh|[<-|[]]]; [exfalso; exact (IH h' Hh E)|lia].
Qed.

(** ** One header *)

Record rel (e : henc) (w : view) : Prop := {
  r_tbl : erel (he_tbl e) (w_tbl w);
  r_req : nrel (he_req e) (w_req w);
  r_res : nrel (he_res e) (w_res w);
  r_size : he_size e = octets_held w }.

Definition storing_of (ix : indexing) (ref : option ih) : storing :=
  match ix, ref with Incremental, _ => Added | Substitution, Some h => Replacing (i_index h) | _, _ => Forgotten end.

Section Encoder.
  Context (ord : nat -> list ih -> list ih) (ord_perm : some_order ord) (cfg : hcfg).

  Lemma no_text e w n v : rel e w -> find_full (n ++ v) (he_tbl e) = None -> forall x, In x (w_tbl w) -> t_name x ++ t_value x <> n ++ v.
  Proof. intros R F x Hx. destruct (erel_in _ _ _ (r_tbl _ _ R) Hx) as (h & Hh & <-). exact (find_full_none _ _ h F Hh). Qed.

  Lemma determine_chosen n v q e r e1 w : rel e w -> determine ord cfg n v q e = (r, e1) ->
    he_size e1 = he_size e /\ he_req e1 = he_req e /\ he_res e1 = he_res e /\
    ((exists h, In h (he_tbl e) /\ i_full h = n ++ v /\ r = mk_hr RepIndexed (Some h) NoIndexing 0 /\ he_tbl e1 = touch reset_age (i_full h) (he_tbl e)) \/
     (find_full (n ++ v) (he_tbl e) = None /\ he_tbl e1 = he_tbl e /\
      (hr_idx r = Substitution -> exists h, hr_ref r = Some h /\ In h (he_tbl e)) /\
      ((hr_rep r = RepLiteral /\ chosen cfg q w n v (Literal (storing_of (hr_idx r) (hr_ref r)) n v)) \/
       (hr_rep r = RepDelta /\ h_delta cfg = true /\ exists h, hr_ref r = Some h /\ In h (he_tbl e) /\
          chosen cfg q w n v (Delta (storing_of (hr_idx r) (hr_ref r)) (i_index h) (hr_len r) (skipn (hr_len r) v)))))).
  Proof.
    intros R. pose proof R as [RT R1 R2 RS]. unfold determine. destruct (find_full (n ++ v) (he_tbl e)) as [h|] eqn:F.
    { intros [= <- <-]. cbn. repeat (split; [reflexivity|]). left. apply find_full_some in F as [F1 F2]. exists h. rewrite F2. auto. }
    pose proof (no_text e w n v R F) as NT. assert (Room : forall x, (he_size e + x <? h_max cfg)%Z = true <-> room cfg w x) by (intros x; rewrite Z.ltb_lt, RS; reflexivity).
    destruct (h_delta cfg) eqn:Dl; cbn [negb andb].
    2:{ destruct (str_eqb_spec n (lit ":path")) as [Ep|Ep].
        { intros [= <- <-]. repeat (split; [reflexivity|]). right. split; [reflexivity|]. split; [reflexivity|]. split; [discriminate|]. left. split; [reflexivity|]. now apply chosen_path. }
        change (1 <? 0)%nat with false. cbv iota.
        assert (Lit : forall ix ref, stores_literal cfg w v (storing_of ix ref) -> chosen cfg q w n v (Literal (storing_of ix ref) n v)).
        { intros ix ref H. apply chosen_literal; [exact NT| |exact H]. now rewrite Dl. }
        destruct (he_size e + zlen v <? h_max cfg)%Z eqn:Rm.
        { intros [= <- <-]. cbn. repeat (split; [reflexivity|]). right. split; [reflexivity|]. split; [reflexivity|]. split; [discriminate|]. left. split; [reflexivity|].
          apply (Lit Incremental None). left. split; [now apply Room|reflexivity]. }
        assert (Nr : ~ room cfg w (zlen v)) by (intros C; apply Room in C; congruence).
        pose proof (lru_best (h_max cfg) (he_size e) v (ord (S (he_clock e)) (he_tbl e))) as LB.
        assert (Cd : forall h, cand (h_max cfg) (he_size e) v h <-> replaceable cfg w v (seen h)).
        { intros h. unfold cand, replaceable, room. cbn [seen t_age t_value]. rewrite <- RS. split; intros [A B]; split; lia. }
        destruct (fold_left (lru_step (h_max cfg) (he_size e) v) (ord (S (he_clock e)) (he_tbl e)) None) as [h|]; intros [= <- <-]; cbn;
          (repeat (split; [reflexivity|])); right; (split; [reflexivity|]); (split; [reflexivity|]).
        - destruct LB as (A & B & C). assert (Hin : In h (he_tbl e)) by (eapply Permutation_in; [apply ord_perm|exact A]). split; [intros _; eauto|]. left. split; [reflexivity|].
          apply (Lit Substitution (Some h)). right. left. split; [exact Nr|]. exists (i_index h), (seen h). split; [now apply (er_nth _ _ RT)|]. split; [now apply Cd|].
          split; [|reflexivity]. intros y Hy Hy'. destruct (erel_in _ _ _ RT Hy) as (h' & Hh & <-). apply (C h'); [eapply Permutation_in; [symmetry; apply ord_perm|exact Hh]|now apply Cd].
        - split; [discriminate|]. left. split; [reflexivity|]. apply (Lit NoIndexing None). right. right. split; [exact Nr|]. split; [|reflexivity].
          intros y Hy Hy'. destruct (erel_in _ _ _ RT Hy) as (h' & Hh & <-). apply (LB h'); [eapply Permutation_in; [symmetry; apply ord_perm|exact Hh]|now apply Cd]. }
    pose proof (delta_best cfg n v (ord (he_clock e) (he_tbl e))) as DB.
    destruct (fold_left (delta_step cfg n v) (ord (he_clock e) (he_tbl e)) (0%nat, None, 0%Z)) as [[k dref] added].
    destruct (Nat.ltb_spec 1 k) as [Hk|Hk].
    { destruct dref as [h|]; [|destruct DB; lia]. destruct DB as (A & B & C & D & G). intros [= <- <-]. cbn [he_size he_req he_res he_tbl hr_idx hr_ref hr_rep hr_len].
      repeat (split; [reflexivity|]). right. split; [reflexivity|]. split; [reflexivity|].
      assert (Hin : In h (he_tbl e)) by (eapply Permutation_in; [apply ord_perm|exact A]). split; [intros _; eauto|]. right. split; [reflexivity|]. split; [reflexivity|].
      exists h. split; [reflexivity|]. split; [exact Hin|].
      apply (chosen_delta cfg q w n v (i_index h) (seen h)); [exact NT|exact Dl|now apply (er_nth _ _ RT)|apply elig_seen; [now apply (er_usage _ _ RT)|exact B]|rewrite C; apply shares_prefix|exact Hk| |].
      - intros y k' Hy Hy' Hs. destruct (erel_in _ _ _ RT Hy) as (h' & Hh & <-). rewrite (shares_unique _ _ _ _ Hs). apply (G h').
        + eapply Permutation_in; [symmetry; apply ord_perm|exact Hh].
        + apply elig_seen in Hy'; [exact Hy'|now apply (er_usage _ _ RT)].
      - cbn [seen t_value]. unfold stores_delta. cbv zeta. rewrite <- D.
        assert (Nv : (if q && (h_max cfg <? 10000)%Z then (15 <? added)%Z else true) = true <-> novel cfg q added).
        { unfold novel. destruct q; cbn [andb]; [|split; auto]. destruct (Z.ltb_spec (h_max cfg) 10000) as [L|L]; [rewrite Z.ltb_lt; split; [auto|intros [?|[?|?]]; [discriminate|lia|lia]]|split; auto]. }
        destruct ((if q && (h_max cfg <? 10000)%Z then (15 <? added)%Z else true) && (he_size e + zlen v <? h_max cfg)%Z) eqn:Cn.
        + apply andb_true_iff in Cn as [C1 C2]. left. split; [now apply Nv|]. split; [now apply Room|reflexivity].
        + assert (NN : ~ (novel cfg q added /\ room cfg w (zlen v))) by (intros [C1 C2]; apply Nv in C1; apply Room in C2; rewrite C1, C2 in Cn; discriminate).
          destruct (he_size e + added <? h_max cfg)%Z eqn:C3; right; [left|right]; (split; [exact NN|]); (split; [|reflexivity]); [now apply Room|intros C4; apply Room in C4; congruence]. }
    assert (Lit : forall ix ref, stores_literal cfg w v (storing_of ix ref) -> chosen cfg q w n v (Literal (storing_of ix ref) n v)).
    { intros ix ref H. apply chosen_literal; [exact NT| |exact H]. rewrite Dl. intros y k' Hy Hy' Hs. destruct (erel_in _ _ _ RT Hy) as (h' & Hh & <-). rewrite (shares_unique _ _ _ _ Hs).
      apply elig_seen in Hy'; [|now apply (er_usage _ _ RT)]. assert (Hh' : In h' (ord (he_clock e) (he_tbl e))) by (eapply Permutation_in; [symmetry; apply ord_perm|exact Hh]).
      destruct dref as [h|]; [destruct DB as (_ & _ & _ & _ & G); specialize (G h' Hh' Hy'); cbn [seen t_value]; lia|destruct DB as (_ & G); exfalso; exact (G h' Hh' Hy')]. }
    destruct (he_size e + zlen v <? h_max cfg)%Z eqn:Rm.
    { intros [= <- <-]. cbn. repeat (split; [reflexivity|]). right. split; [reflexivity|]. split; [reflexivity|]. split; [discriminate|]. left. split; [reflexivity|].
      apply (Lit Incremental None). left. split; [now apply Room|reflexivity]. }
    assert (Nr : ~ room cfg w (zlen v)) by (intros C; apply Room in C; congruence).
    pose proof (lru_best (h_max cfg) (he_size e) v (ord (S (he_clock e)) (he_tbl e))) as LB.
    assert (Cd : forall h, cand (h_max cfg) (he_size e) v h <-> replaceable cfg w v (seen h)).
    { intros h. unfold cand, replaceable, room. cbn [seen t_age t_value]. rewrite <- RS. split; intros [A B]; split; lia. }
    destruct (fold_left (lru_step (h_max cfg) (he_size e) v) (ord (S (he_clock e)) (he_tbl e)) None) as [h|]; intros [= <- <-]; cbn;
      (repeat (split; [reflexivity|])); right; (split; [reflexivity|]); (split; [reflexivity|]).
    - destruct LB as (A & B & C). assert (Hin : In h (he_tbl e)) by (eapply Permutation_in; [apply ord_perm|exact A]). split; [intros _; eauto|]. left. split; [reflexivity|].
      apply (Lit Substitution (Some h)). right. left. split; [exact Nr|]. exists (i_index h), (seen h). split; [now apply (er_nth _ _ RT)|]. split; [now apply Cd|].
      split; [|reflexivity]. intros y Hy Hy'. destruct (erel_in _ _ _ RT Hy) as (h' & Hh & <-). apply (C h'); [eapply Permutation_in; [symmetry; apply ord_perm|exact Hh]|now apply Cd].
    - split; [discriminate|]. left. split; [reflexivity|]. apply (Lit NoIndexing None). right. right. split; [exact Nr|]. split; [|reflexivity].
      intros y Hy Hy'. destruct (erel_in _ _ _ RT Hy) as (h' & Hh & <-). apply (LB h'); [eapply Permutation_in; [symmetry; apply ord_perm|exact Hh]|now apply Cd].
  Qed.

  Lemma update_twice i f g (t : list entry) : (forall x, f (g x) = f x) -> update_nth i f (update_nth i g t) = update_nth i f t.
  Proof. intros H. revert i. induction t as [|x t IH]; intros [|i]; cbn [update_nth]; congruence. Qed.

  Lemma touch_absent f full te : (forall h, In h te -> i_full h <> full) -> touch f full te = te.
  Proof.
    intros H. unfold touch. rewrite <- (map_id te) at 2. apply map_ext_in. intros h Hh. destruct (str_eqb_spec (i_full h) full) as [E|]; [exfalso; exact (H h Hh E)|reflexivity].
  Qed.
  Lemma touch_app f full a b : touch f full (a ++ b) = touch f full a ++ touch f full b.
  Proof. apply map_app. Qed.
  Lemma usage_ok h : i_name (add_usage h) = i_name h /\ i_value (add_usage h) = i_value h /\ i_index (add_usage h) = i_index h.
  Proof. auto. Qed.
  Lemma age_ok h : i_name (reset_age h) = i_name h /\ i_value (reset_age h) = i_value h /\ i_index (reset_age h) = i_index h.
  Proof. auto. Qed.
  Lemma erel_use te tl ref : In ref te -> erel te tl ->
    erel (touch add_usage (i_full ref) te) (update_nth (i_index ref) (fun x => mk_entry (t_name x) (t_value x) (t_age x) (S (t_uses x))) tl).
  Proof.
    intros Hr R. apply erel_touch; [apply usage_ok|cbn; lia| |exact Hr|exact R]. intros H. unfold seen, add_usage. cbn [i_name i_value i_age i_usage t_name t_value t_age t_uses].
    f_equal. lia.
  Qed.
  Lemma erel_reset te tl ref : In ref te -> erel te tl ->
    erel (touch reset_age (i_full ref) te) (update_nth (i_index ref) (fun x => mk_entry (t_name x) (t_value x) 0 (t_uses x)) tl).
  Proof. intros Hr R. apply erel_touch; [apply age_ok|auto|reflexivity|exact Hr|exact R]. Qed.

  (** The table after storing. *)
  Definition tbl_after (ix : indexing) (ref : option ih) (n v : str) (t : list ih) : list ih :=
    match ix, ref with
    | Incremental, _ => t ++ [new_ih n v (length t)]
    | Substitution, Some r => filter (fun x => negb (str_eqb (i_full x) (i_full r))) t ++ [new_ih n v (i_index r)]
    | _, _ => t
    end.
  Definition size_after (ix : indexing) (ref : option ih) (v : str) (z : Z) : Z :=
    match ix, ref with
    | Incremental, _ => (z + zlen v)%Z
    | Substitution, Some r => (z - zlen (i_value r) + zlen v)%Z
    | _, _ => z
    end.

  Lemma stored_ok ix ref n v te tl z : erel te tl -> (forall h, In h te -> i_full h <> n ++ v) ->
    (ix = Substitution -> exists h, ref = Some h /\ In h te) -> z = sizes tl ->
    erel (tbl_after ix ref n v te) (stored n v (storing_of ix ref) tl) /\ size_after ix ref v z = sizes (stored n v (storing_of ix ref) tl).
  Proof.
    intros R Hf Hs ->. destruct ix; cbn [tbl_after storing_of stored size_after].
    - split; [exact R|reflexivity].
    - split; [now apply erel_add|]. rewrite sizes_app. cbn. lia.
    - destruct (Hs eq_refl) as (h & -> & Hh). cbn [stored storing_of]. split; [now apply erel_sub|]. rewrite (sizes_update _ _ _ _ (er_nth _ _ R h Hh)). reflexivity.
  Qed.

  Lemma flags_delta st : N.lor (flags st) 64 = 64 + flags st.
  Proof. destruct st; reflexivity. Qed.

  Lemma encode_one_chosen q e n v e' s w : rel e w -> encode_one ord cfg q e (n, v) = (e', Ok s) ->
    exists it, chosen cfg q w n v it /\ item_octets cfg q w it = Ok s /\ rel e' (afterwards q w n v it).
  Proof.
    intros R. unfold encode_one. destruct (determine ord cfg n v q e) as [r e1] eqn:D.
    destruct (determine_chosen n v q e r e1 w R D) as (S1 & Q1 & P1 & [(h & Hh & Ht & -> & T1)|(F & T1 & Hsub & Hch)]); pose proof R as [RT RQ RP RS].
    { cbn [hr_rep ref_of hr_ref bind]. intros E. assert (E1 : e1 = e') by congruence. apply (f_equal snd) in E. cbn [snd] in E. subst e'.
      exists (Indexed (i_index h)). split; [apply (chosen_indexed _ _ _ _ _ _ (seen h)); [now apply (er_nth _ _ RT)|exact Ht]|]. split.
      - cbn [item_octets]. destruct (Nat.ltb_spec (i_index h) 64) as [L|L]; [|exact E]. rewrite <- E.
        assert (Ea : N.lor 128 (N.of_nat (i_index h)) = 128 + N.of_nat (i_index h)).
        { apply (lor_flag 128 6); [reflexivity|change (2 ^ 6) with 64; lia]. }
        rewrite Ea. unfold pack_B. destruct (N.ltb_spec (128 + N.of_nat (i_index h)) 256); [reflexivity|lia].
      - cbn [afterwards]. split; cbn [w_tbl w_req w_res]; [rewrite T1; now apply erel_reset|congruence|congruence|].
        rewrite S1, RS. unfold octets_held. cbn [w_tbl]. fold (sizes (w_tbl w)). rewrite (sizes_update _ _ _ _ (er_nth _ _ RT h Hh)). cbn [seen t_value]. lia. }
    assert (Hf : forall h, In h (he_tbl e) -> i_full h <> n ++ v) by (intros h Hh; exact (find_full_none _ _ h F Hh)).
    set (st := storing_of (hr_idx r) (hr_ref r)) in *.
    set (e2 := set_e_tbl e1 (tbl_after (hr_idx r) (hr_ref r) n v (he_tbl e)) (size_after (hr_idx r) (hr_ref r) v (he_size e))).
    assert (U : match hr_idx r with
          | Substitution =>
              let* ref := ref_of r in
              let* _ := match find_full (i_full ref) (he_tbl e1) with Some _ => Ok tt | None => Err KeyError end in
              let t := filter (fun x => negb (str_eqb (i_full x) (i_full ref))) (he_tbl e1) in
              let t := filter (fun x => negb (str_eqb (i_full x) (n ++ v))) t ++ [new_ih n v (i_index ref)] in
              Ok (48, set_e_tbl e1 t (he_size e1 - zlen (i_value ref) + zlen v))
          | Incremental =>
              let n0 := length (he_tbl e1) in
              let t := filter (fun x => negb (str_eqb (i_full x) (n ++ v))) (he_tbl e1) ++ [new_ih n v n0] in
              Ok (32, set_e_tbl e1 t (he_size e1 + zlen v))
          | NoIndexing => Ok (0, e1)
          end = Ok (flags st, e2)).
    { subst st e2. rewrite T1, S1. destruct (hr_idx r) eqn:Ix; cbn [tbl_after size_after storing_of flags].
      - f_equal. f_equal. unfold set_e_tbl. rewrite <- T1, <- S1. now destruct e1.
      - cbv zeta. rewrite (filter_absent _ _ Hf). reflexivity.
      - destruct (Hsub eq_refl) as (h & Eh & Hh). unfold ref_of. rewrite Eh. cbn [bind flags].
        destruct (find_full (i_full h) (he_tbl e)) as [h'|] eqn:Fh; [|exfalso; exact (find_full_none _ _ h Fh Hh eq_refl)]. cbn [bind]. cbv zeta.
        rewrite (filter_absent (n ++ v)); [reflexivity|]. intros x Hx. apply filter_In in Hx as [Hx _]. auto. }
    assert (Bt : match hr_idx r with NoIndexing => 5 | _ => 4 end = bits st).
    { subst st. destruct (hr_idx r) eqn:Ix; try reflexivity. destruct (Hsub eq_refl) as (h & -> & _). reflexivity. }
    destruct Hch as [[Er Hch]|(Er & Dl & h & Eh & Hh & Hch)]; rewrite Er; cbv beta iota zeta; cbv beta iota zeta in U; rewrite U; cbv beta iota; rewrite Bt.
    - rewrite andb_false_r. 
      destruct (stored_ok (hr_idx r) (hr_ref r) n v _ _ (he_size e) RT Hf Hsub RS) as [K1 K2]. fold st in K1, K2.
      assert (N2 : e_names q e2 = e_names q e) by (unfold e_names, e2; cbn [set_e_tbl he_req he_res]; destruct q; congruence).
      assert (NR : nrel (e_names q e) (names q w)) by (unfold e_names, names; destruct q; assumption).
      rewrite N2, (nrel_get _ _ n NR).
      assert (Sb : match hr_idx r with Substitution => let* ref := ref_of r in hd_write_int (flags st) 0 (N.of_nat (i_index ref)) | _ => Ok [] end =
                   match st with Replacing i => hd_write_int (flags st) 0 (N.of_nat i) | _ => Ok [] end).
      { subst st. destruct (hr_idx r) eqn:Ix; try reflexivity. destruct (Hsub eq_refl) as (h & E & _). unfold ref_of. rewrite E. reflexivity. }
      rewrite Sb. intros E. exists (Literal st n v). split; [exact Hch|]. cbn [item_octets].
      destruct (position n (names q w)) as [i|] eqn:Pn.
      + assert (E1 : e2 = e') by congruence. apply (f_equal snd) in E. cbn [snd] in E. subst e'. split; [exact E|].
        cbn [afterwards]. split; cbn [w_tbl w_req w_res].
        * exact K1.
        * unfold e2. cbn. rewrite Q1. destruct q; [rewrite learnt_spec; cbn [names] in Pn; now rewrite Pn|exact RQ].
        * unfold e2. cbn. rewrite P1. destruct q; [exact RP|rewrite learnt_spec; cbn [names] in Pn; now rewrite Pn].
        * exact K2.
      + destruct (hd_write_int (flags st) (bits st) 0) as [a|] eqn:A; cbn [bind] in E |- *; [|discriminate].
        destruct (h_write cfg n) as [b|] eqn:B; cbn [bind] in E |- *; [|discriminate].
        assert (E1 : set_e_names q e2 (dset (e_names q e) n (length (e_names q e))) = e') by congruence. apply (f_equal snd) in E. cbn [snd] in E. subst e'.
        split; [exact E|].
        assert (NR' : nrel (dset (e_names q e) n (length (e_names q e))) (learnt n (names q w))).
        { rewrite learnt_spec, Pn. apply nrel_add; [exact NR|]. now rewrite (nrel_get _ _ n NR). }
        cbn [afterwards]. split; cbn [w_tbl w_req w_res].
        * unfold set_e_names. destruct q; exact K1.
        * unfold set_e_names, e2. destruct q; cbn; [exact NR'|now rewrite Q1].
        * unfold set_e_names, e2. destruct q; cbn; [now rewrite P1|exact NR'].
        * unfold set_e_names. destruct q; exact K2.
    - rewrite Dl. cbn [andb]. unfold ref_of. rewrite Eh. cbn [bind]. rewrite flags_delta. intros E.
      exists (Delta st (i_index h) (hr_len r) (skipn (hr_len r) v)). split; [exact Hch|]. cbn [item_octets].
      destruct (hd_write_int (64 + flags st) (bits st) (N.of_nat (i_index h))) as [a|]; cbn [bind] in E |- *; [|discriminate].
      destruct (hd_write_int (64 + flags st) 0 (N.of_nat (hr_len r))) as [b|]; cbn [bind] in E |- *; [|discriminate].
      assert (E1 : set_e_tbl e2 (touch add_usage (i_full h) (he_tbl e2)) (he_size e2) = e') by congruence. apply (f_equal snd) in E. cbn [snd] in E. subst e'.
      split; [destruct (h_write cfg (skipn (hr_len r) v)) as [c|]; cbn [bind] in E |- *; [rewrite <- E, app_assoc; reflexivity|discriminate]|].
      pose proof (erel_use _ _ h Hh RT) as RT'. set (tl' := update_nth (i_index h) (fun x => mk_entry (t_name x) (t_value x) (t_age x) (S (t_uses x))) (w_tbl w)) in *.
      assert (Sz : he_size e = sizes tl').
      { rewrite RS. unfold tl', octets_held. fold (sizes (w_tbl w)). rewrite (sizes_update _ _ _ _ (er_nth _ _ RT h Hh)). cbn [seen t_value]. lia. }
      assert (Hf' : forall x, In x (touch add_usage (i_full h) (he_tbl e)) -> i_full x <> n ++ v).
      { intros x Hx. apply in_map_iff in Hx as (y & <- & Hy). destruct (str_eqb (i_full y) (i_full h)); apply (Hf y Hy). }
      cbn [afterwards]. fold tl'. split; cbn [set_e_tbl he_tbl he_req he_res he_size w_tbl w_req w_res]; [|unfold e2; cbn; now rewrite Q1|unfold e2; cbn; now rewrite P1|].
      + unfold e2. cbn [set_e_tbl he_tbl]. subst st. rewrite Eh. destruct (hr_idx r) eqn:Ix; cbn [tbl_after storing_of stored].
        * exact RT'.
        * rewrite touch_app. rewrite (touch_absent add_usage (i_full h) [_]); [|intros x [<-|[]]; cbn; intros C; symmetry in C; exact (Hf h Hh C)].
          replace (length (he_tbl e)) with (length (touch add_usage (i_full h) (he_tbl e))) by apply map_length. now apply erel_add.
        * rewrite touch_absent.
          -- unfold tl'. rewrite update_twice by reflexivity. now apply erel_sub.
          -- intros x Hx. apply in_app_or in Hx as [Hx|[<-|[]]]; [|cbn; intros C; symmetry in C; exact (Hf h Hh C)].
             apply filter_In in Hx as [_ Hx]. intros C. rewrite C, str_eqb_refl' in Hx. discriminate.
      + unfold e2. cbn [set_e_tbl he_size]. unfold octets_held. cbn [w_tbl]. fold (sizes (stored n v st tl')).
        subst st. rewrite Eh. destruct (hr_idx r) eqn:Ix; cbn [size_after storing_of stored].
        * exact Sz.
        * rewrite sizes_app. cbn. lia.
        * unfold tl'. rewrite update_twice by reflexivity. rewrite (sizes_update _ _ _ _ (er_nth _ _ RT h Hh)). cbn [t_value seen]. rewrite RS. reflexivity.
  Qed.

  Lemma encode_list_says q hs : forall e e' s w, rel e w -> encode_list ord cfg q e hs = (e', Ok s) ->
    exists w', says cfg q w hs s w' /\ rel e' w'.
  Proof.
    induction hs as [|[n v] hs IH]; intros e e' s w R E; cbn [encode_list] in E.
    - injection E as <- <-. exists w. split; [constructor|exact R].
    - destruct (encode_one ord cfg q e (n, v)) as [e1 [s1|x]] eqn:E1; [|discriminate].
      destruct (encode_list ord cfg q e1 hs) as [e2 [s2|x]] eqn:E2; cbn [bind] in E; [|discriminate]. injection E as <- <-.
      destruct (encode_one_chosen q e n v e1 s1 w R E1) as (it & C & O & R1). destruct (IH e1 e2 s2 _ R1 E2) as (w' & S & R2).
      exists w'. split; [econstructor; eauto|exact R2].
  Qed.

  Lemma rel_older e w : rel e w -> rel (set_e_tbl e (map grow_age (he_tbl e)) (he_size e)) (older w).
  Proof.
    intros [RT RQ RP RS]. split; cbn [set_e_tbl older he_tbl he_req he_res he_size w_tbl w_req w_res]; [now apply erel_older|exact RQ|exact RP|].
    rewrite RS. unfold octets_held. cbn [w_tbl older]. fold (sizes (w_tbl w)). symmetry. apply sizes_older.
  Qed.

  Lemma session_says ms : forall e e' fs w, rel e w -> enc_all ord cfg e ms = (e', Ok fs) -> exists w', conversation cfg w ms fs w' /\ rel e' w'.
  Proof.
    induction ms as [|[q hs] ms IH]; intros e e' fs w R E; cbn [enc_all] in E.
    - injection E as <- <-. exists w. split; [constructor|exact R].
    - unfold hd_encode, hd_payload in E. cbv zeta in E. set (e0 := set_e_tbl e (map grow_age (he_tbl e)) (he_size e)) in *.
      destruct (pack_B (lenN hs)) as [nb|x] eqn:PB; [|discriminate].
      destruct (encode_list ord cfg q e0 hs) as [e1 [s|x]] eqn:E1; cbn [bind] in E; [|discriminate].
      unfold pack_B in PB. destruct (N.ltb_spec (lenN hs) 256) as [L|L]; [|discriminate]. injection PB as <-.
      unfold hd_frame in E. destruct (pack_H (lenN ([lenN hs] ++ s))) as [len|x] eqn:PH; cbn [bind] in E; [|discriminate].
      destruct (enc_all ord cfg e1 ms) as [e2 [fs'|x]] eqn:E2; [|discriminate]. injection E as <- <-.
      destruct (encode_list_says q hs e0 e1 s (older w) (rel_older e w R) E1) as (w1 & S & R1). destruct (IH e1 e2 fs' w1 R1 E2) as (w2 & C & R2).
      exists w2. split; [|exact R2]. eapply conv_message; eauto.
      rewrite <- PH. f_equal. unfold lenN. cbn [app length]. lia.
  Qed.

  Fixpoint distinct (l : list str) : bool := match l with [] => true | x :: r => negb (existsb (str_eqb x) r) && distinct r end.
  Lemma distinct_ok l : distinct l = true -> NoDup l.
  Proof.
    induction l as [|x l IH]; cbn [distinct]; [constructor|]. rewrite andb_true_iff, negb_true_iff. intros [H1 H2]. constructor; [|auto]. intros C.
    rewrite <- not_true_iff_false in H1. apply H1. apply existsb_exists. exists x. split; [exact C|apply str_eqb_refl'].
  Qed.
  Lemma rel_start : rel henc_new at_start.
  Proof.
    assert (ND : forall l, distinct l = true -> NoDup l) by exact distinct_ok.
    split; cbn [henc_new at_start he_tbl he_req he_res he_size w_tbl w_req w_res].
    - split; cbn; try constructor; contradiction.
    - split; [vm_compute; reflexivity|]. apply ND. vm_compute. reflexivity.
    - split; [vm_compute; reflexivity|]. apply ND. vm_compute. reflexivity.
    - reflexivity.
  Qed.
End Encoder.
