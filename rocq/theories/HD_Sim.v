(** * headerdiff: the decoder's tables follow the encoder's. *)
From Coq Require Import String List NArith ZArith Bool Arith Lia ZifyN ZifyNat Permutation.
From Verif Require Import PyBase NBits HTTP2_Int PyStr HD_Model HD_Int.
Import ListNotations.
Open Scope N_scope.
Open Scope py_scope.

Lemma str_eqb_refl' s : str_eqb s s = true.
Proof. destruct (str_eqb_spec s s); congruence. Qed.

(** ** Prefixes *)
Lemma common_prefix_firstn s1 : forall s2 k, (k <= common_prefix s1 s2)%nat -> firstn k s1 = firstn k s2.
Proof.
  induction s1 as [|a s1 IH]; intros [|b s2] k H; cbn [common_prefix] in H.
  - reflexivity.
  - replace k with O by lia. reflexivity.
  - replace k with O by lia. reflexivity.
  - destruct (N.eqb_spec a b) as [->|]; [|replace k with O by lia; reflexivity].
    destruct k; [reflexivity|]. cbn [firstn]. f_equal. apply IH. lia.
Qed.

Lemma last_limit_le s lim i : (last_limit s lim i <= i)%nat.
Proof.
  induction i as [|i IH]; cbn [last_limit]; [lia|].
  destruct (nth_error s i) as [c|]; [destruct (existsb _ _)|]; lia.
Qed.

Lemma prefix_for_le cfg v iv : (prefix_for cfg v iv <= common_prefix v iv)%nat.
Proof.
  unfold prefix_for. destruct (h_dtype cfg); try lia. apply last_limit_le.
Qed.

Lemma prefix_join v iv k : (k <= common_prefix v iv)%nat -> firstn k iv ++ skipn k v = v.
Proof. intros H. rewrite <- (common_prefix_firstn v iv k H). apply firstn_skipn. Qed.

(** ** Keys of the encoder's table *)
Lemma find_full_some full t h : find_full full t = Some h -> In h t /\ i_full h = full.
Proof.
  unfold find_full. intros H. apply find_some in H. destruct H as [Hi He]. split; [exact Hi|].
  destruct (str_eqb_spec (i_full h) full); [assumption|discriminate].
Qed.

Lemma find_full_none full t h : find_full full t = None -> In h t -> i_full h <> full.
Proof.
  unfold find_full. intros H Hi E. pose proof (find_none _ _ H _ Hi) as Hn. cbv beta in Hn.
  rewrite E, str_eqb_refl' in Hn. discriminate.
Qed.

Lemma filter_absent (full : str) t : (forall h, In h t -> i_full h <> full) ->
  filter (fun x => negb (str_eqb (i_full x) full)) t = t.
Proof.
  induction t as [|h t IH]; intros H; cbn [filter]; [reflexivity|].
  destruct (str_eqb_spec (i_full h) full) as [E|_].
  - exfalso. apply (H h); [now left|exact E].
  - cbn [negb]. f_equal. apply IH. intros x Hx. apply H. now right.
Qed.

Lemma filter_one ref t : NoDup (map i_full t) -> In ref t ->
  exists a b, t = a ++ ref :: b /\ filter (fun x => negb (str_eqb (i_full x) (i_full ref))) t = a ++ b.
Proof.
  intros Hn Hi. apply in_split in Hi. destruct Hi as (a & b & ->). exists a, b. split; [reflexivity|].
  rewrite map_app in Hn. cbn [map] in Hn. apply NoDup_remove in Hn. destruct Hn as [_ Hn].
  rewrite filter_app. cbn [filter]. rewrite str_eqb_refl'. cbn [negb]. f_equal; apply filter_absent.
  - intros h Hh E. apply Hn. apply in_or_app. left. rewrite <- E. now apply in_map.
  - intros h Hh E. apply Hn. apply in_or_app. right. rewrite <- E. now apply in_map.
Qed.

(** ** Tables *)
Record tsim (te : list ih) (td : list hdr) : Prop := {
  ts_len : length te = length td;
  ts_nth : forall h, In h te -> nth_error td (i_index h) = Some (i_name h, i_value h);
  ts_keys : NoDup (map i_full te);
  ts_idx : NoDup (map i_index te) }.

Lemma tsim_map g te td : (forall h, i_name (g h) = i_name h /\ i_value (g h) = i_value h /\ i_index (g h) = i_index h) ->
  tsim te td -> tsim (map g te) td.
Proof.
  intros Hg [L N K I]. split.
  - now rewrite map_length.
  - intros h Hh. apply in_map_iff in Hh. destruct Hh as (x & <- & Hx).
    destruct (Hg x) as (-> & -> & ->). now apply N.
  - rewrite map_map. erewrite map_ext; [exact K|]. intros h. unfold i_full.
    destruct (Hg h) as (-> & -> & _). reflexivity.
  - rewrite map_map. erewrite map_ext; [exact I|]. intros h. apply Hg.
Qed.

Lemma tsim_touch f full te td : (forall h, i_name (f h) = i_name h /\ i_value (f h) = i_value h /\ i_index (f h) = i_index h) ->
  tsim te td -> tsim (touch f full te) td.
Proof. intros Hf. apply tsim_map. intros h. destruct (str_eqb (i_full h) full); auto. Qed.

Lemma tsim_add te td n v : tsim te td -> (forall h, In h te -> i_full h <> n ++ v) ->
  tsim (te ++ [new_ih n v (length te)]) (td ++ [(n, v)]).
Proof.
  intros [L N K I] Hf. split.
  - rewrite !app_length, L. reflexivity.
  - intros h Hh. apply in_app_or in Hh. destruct Hh as [Hh|[<-|[]]].
    + pose proof (N h Hh) as E. rewrite nth_error_app1; [exact E|].
      apply nth_error_Some. congruence.
    + cbn [i_index i_name i_value new_ih]. rewrite L, nth_error_app2, Nat.sub_diag by lia. reflexivity.
  - rewrite map_app. apply NoDup_snoc; [exact K|]. intros Hi. apply in_map_iff in Hi.
    destruct Hi as (h & E & Hh). exact (Hf h Hh E).
  - rewrite map_app. apply NoDup_snoc; [exact I|]. intros Hi. apply in_map_iff in Hi.
    destruct Hi as (h & E & Hh). pose proof (N h Hh) as E'.
    assert (i_index h < length td)%nat by (apply nth_error_Some; congruence).
    cbn [new_ih i_index] in E. lia.
Qed.

Lemma update_nth_length {A} i (f : A -> A) l : length (update_nth i f l) = length l.
Proof. revert i. induction l as [|x l IH]; intros [|i]; cbn [update_nth length]; auto. Qed.
Lemma update_nth_same {A} i (f : A -> A) l x : nth_error l i = Some x -> nth_error (update_nth i f l) i = Some (f x).
Proof.
  revert i. induction l as [|y l IH]; intros [|i] H; cbn [update_nth nth_error] in *; try discriminate; auto.
  now injection H as ->.
Qed.
Lemma update_nth_other {A} i j (f : A -> A) l : i <> j -> nth_error (update_nth i f l) j = nth_error l j.
Proof.
  revert i j. induction l as [|y l IH]; intros [|i] [|j] H; cbn [update_nth nth_error]; auto; try congruence.
Qed.
Lemma update_nth_split {A} (f : A -> A) a x b : update_nth (length a) f (a ++ x :: b) = a ++ f x :: b.
Proof. induction a as [|y a IH]; cbn [length app update_nth]; [reflexivity|]. now rewrite IH. Qed.

Lemma tsim_sub te td n v ref : tsim te td -> In ref te -> (forall h, In h te -> i_full h <> n ++ v) ->
  tsim (filter (fun x => negb (str_eqb (i_full x) (i_full ref))) te ++ [new_ih n v (i_index ref)])
    (update_nth (i_index ref) (fun _ => (n, v)) td).
Proof.
  intros [L N K I] Hr Hf. destruct (filter_one ref te K Hr) as (a & b & Ht & ->). subst te.
  pose proof (N ref Hr) as Er.
  rewrite map_app in K, I. cbn [map] in K, I.
  apply NoDup_remove in K. apply NoDup_remove in I. destruct K as [K _]. destruct I as [I I'].
  rewrite <- map_app in K, I, I'.
  assert (Hin : forall h, In h (a ++ b) -> In h (a ++ ref :: b)).
  { intros h Hh. apply in_app_or in Hh. apply in_or_app. destruct Hh; [now left|right; now right]. }
  split.
  - rewrite update_nth_length, <- L, !app_length. cbn [length]. lia.
  - intros h Hh. apply in_app_or in Hh. destruct Hh as [Hh|[<-|[]]].
    + rewrite update_nth_other; [apply N; auto|]. intros E. apply I'. rewrite E. now apply in_map.
    + cbn [i_index i_name i_value new_ih]. exact (update_nth_same _ (fun _ => (n, v)) _ _ Er).
  - rewrite (map_app i_full (a ++ b)). apply NoDup_snoc; [exact K|]. intros Hi. apply in_map_iff in Hi.
    destruct Hi as (h & E & Hh). exact (Hf h (Hin h Hh) E).
  - rewrite (map_app i_index (a ++ b)). apply NoDup_snoc; [exact I|exact I'].
Qed.

(** ** Names *)
Definition nsim (de : dict nat) (dl : list str) : Prop :=
  length de = length dl /\ forall n i, dget de n = Some i -> nth_error dl i = Some n.

Record hsim (cfg : hcfg) (e : henc) (d : hdec) : Prop := {
  s_tbl : tsim (he_tbl e) (hd_tbl d);
  s_size : hd_size d = he_size e;
  s_max : (he_size e <= h_max cfg)%Z;
  s_req : nsim (he_req e) (hd_req d);
  s_res : nsim (he_res e) (hd_res d) }.

(** Every written literal is read back, whatever follows. *)
Definition strings_ok (cfg : hcfg) : Prop :=
  forall s bs rest, h_write cfg s = Ok bs -> h_read cfg (bs ++ rest) = Ok (s, lenN bs).

Lemma literal_ok cfg s bs rest : strings_ok cfg -> h_write cfg s = Ok bs -> hd_literal cfg (bs ++ rest) = Ok (s, rest).
Proof.
  intros H E. unfold hd_literal. rewrite (H s bs rest E). cbn [bind]. now rewrite dropN_app.
Qed.

(** ** The encoder's choice *)
Section Choice.
  Variable ord : nat -> list ih -> list ih.
  Hypothesis ord_perm : forall t l, Permutation (ord t l) l.

  Definition delta_inv (cfg : hcfg) (n v : str) (t : list ih) (acc : nat * option ih * Z) : Prop :=
    match acc with
    | (k, None, added) => k = O /\ added = 0%Z
    | (k, Some h, added) => In h t /\ i_name h = n /\ (k <= common_prefix v (i_value h))%nat /\
                            added = (zlen v - zlen (i_value h))%Z
    end.

  Lemma delta_fold cfg n v t : forall l acc, (forall h, In h l -> In h t) -> delta_inv cfg n v t acc ->
    delta_inv cfg n v t (fold_left (delta_step cfg n v) l acc).
  Proof.
    induction l as [|h l IH]; intros [[k r] ad] Hl Ha; cbn [fold_left]; [exact Ha|].
    apply IH; [intros x Hx; apply Hl; now right|].
    unfold delta_step.
    destruct (str_eqb_spec (i_name h) n) as [E|_]; [|exact Ha].
    destruct (match h_dtype cfg with DMax m => (m <=? i_usage h)%Z | _ => false end); [exact Ha|].
    destruct (Nat.leb_spec k (prefix_for cfg v (i_value h))); [|exact Ha].
    cbn [delta_inv]. split; [apply Hl; now left|]. split; [exact E|]. split; [apply prefix_for_le|reflexivity].
  Qed.

  Lemma lru_fold mx sz v t : forall l acc, (forall h, In h l -> In h t) ->
    (forall h, acc = Some h -> In h t /\ (zlen v - zlen (i_value h) < mx - sz)%Z) ->
    forall h, fold_left (lru_step mx sz v) l acc = Some h -> In h t /\ (zlen v - zlen (i_value h) < mx - sz)%Z.
  Proof.
    induction l as [|x l IH]; intros acc Hl Ha h; cbn [fold_left]; [apply Ha|].
    apply IH; [intros y Hy; apply Hl; now right|].
    intros y. unfold lru_step. destruct (1 <? i_age x)%nat; [|apply Ha].
    destruct (Z.ltb_spec (zlen v - zlen (i_value x)) (mx - sz)); [|apply Ha].
    destruct acc as [l0|].
    - destruct (i_age l0 <? i_age x)%nat; [|apply Ha]. intros [= <-]. split; [apply Hl; now left|assumption].
    - intros [= <-]. split; [apply Hl; now left|assumption].
  Qed.

  (** What can be chosen for a header that is not in the table. *)
  Inductive choice (cfg : hcfg) (n v : str) (e : henc) : hr -> Prop :=
  | ch_lit_no : choice cfg n v e (mk_hr RepLiteral None NoIndexing 0)
  | ch_lit_inc : (he_size e + zlen v < h_max cfg)%Z -> choice cfg n v e (mk_hr RepLiteral None Incremental 0)
  | ch_lit_sub ref : In ref (he_tbl e) -> (zlen v - zlen (i_value ref) < h_max cfg - he_size e)%Z ->
      choice cfg n v e (mk_hr RepLiteral (Some ref) Substitution 0)
  | ch_delta ref k ix : h_delta cfg = true -> In ref (he_tbl e) -> i_name ref = n ->
      (k <= common_prefix v (i_value ref))%nat ->
      (ix = Incremental -> he_size e + zlen v < h_max cfg)%Z ->
      (ix = Substitution -> zlen v - zlen (i_value ref) < h_max cfg - he_size e)%Z ->
      choice cfg n v e (mk_hr RepDelta (Some ref) ix k).

  Lemma determine_spec cfg n v q e r e' : determine ord cfg n v q e = (r, e') ->
    he_size e' = he_size e /\ he_req e' = he_req e /\ he_res e' = he_res e /\
    ((exists h, find_full (n ++ v) (he_tbl e) = Some h /\ r = mk_hr RepIndexed (Some h) NoIndexing 0 /\
        he_tbl e' = touch reset_age (n ++ v) (he_tbl e)) \/
     (find_full (n ++ v) (he_tbl e) = None /\ he_tbl e' = he_tbl e /\ choice cfg n v e r)).
  Proof.
    unfold determine. destruct (find_full (n ++ v) (he_tbl e)) as [h|] eqn:F.
    { intros [= <- <-]. cbn. repeat (split; [reflexivity|]). left. exists h. auto. }
    destruct (negb (h_delta cfg) && str_eqb n (lit ":path")).
    { intros [= <- <-]. repeat (split; [reflexivity|]). right. repeat (split; [reflexivity|]). constructor. }
    destruct (if h_delta cfg then _ else _) as [[k dref] added] eqn:D.
    assert (HD : delta_inv cfg n v (he_tbl e) (k, dref, added) /\ (h_delta cfg = false -> dref = None)).
    { destruct (h_delta cfg).
      - split; [|discriminate]. rewrite <- D. apply delta_fold.
        + intros h Hh. eapply Permutation_in; [apply ord_perm|exact Hh].
        + now cbn.
      - injection D as <- <- <-. now cbn. }
    destruct HD as [HD HD0].
    destruct (Nat.ltb_spec 1 k) as [Hk|Hk].
    { intros [= <- <-]. cbn. repeat (split; [reflexivity|]). right. repeat (split; [reflexivity|]).
      destruct dref as [ref|]; cbn [delta_inv] in HD; [|lia].
      destruct HD as (H1 & H2 & H3 & H4).
      constructor; auto.
      - destruct (h_delta cfg); [reflexivity|]. specialize (HD0 eq_refl). discriminate.
      - match goal with |- context [if ?c then Incremental else _] => destruct c eqn:C end.
        + intros _. apply andb_true_iff in C. destruct C as [_ C]. apply Z.ltb_lt in C. exact C.
        + destruct (he_size e + added <? h_max cfg)%Z; discriminate.
      - match goal with |- context [if ?c then Incremental else _] => destruct c eqn:C end; [discriminate|].
        destruct (Z.ltb_spec (he_size e + added) (h_max cfg)); [|discriminate]. intros _. lia. }
    destruct (Z.ltb_spec (he_size e + zlen v) (h_max cfg)) as [Hl|Hl].
    { intros [= <- <-]. cbn. repeat (split; [reflexivity|]). right. repeat (split; [reflexivity|]).
      now constructor. }
    destruct (fold_left _ (ord (S (he_clock e)) _) _) as [l|] eqn:F2.
    - intros [= <- <-]. cbn. repeat (split; [reflexivity|]). right. repeat (split; [reflexivity|]).
      apply (lru_fold _ _ _ (he_tbl e)) in F2; [|intros h Hh; eapply Permutation_in; [apply ord_perm|exact Hh]|discriminate].
      destruct F2. now constructor.
    - intros [= <- <-]. cbn. repeat (split; [reflexivity|]). right. repeat (split; [reflexivity|]). constructor.
  Qed.
End Choice.

(** ** First octets *)
Definition first_octets : list (N * N) := [(0, 5); (32, 4); (48, 4); (64, 5); (96, 4); (112, 4)].
Definition flags_check (byte p b : N) : bool :=
  negb ((byte <=? b) && (b <=? byte + N.ones p)) ||
  ((N.land b 128 =? 0) && Bool.eqb (0 <? N.land b 64) (64 <=? byte) &&
   Bool.eqb (N.land b 64 =? 64) (64 <=? byte) &&
   Bool.eqb (N.land b 48 =? 32) ((byte =? 32) || (byte =? 96)) &&
   Bool.eqb (N.land b 48 =? 48) ((byte =? 48) || (byte =? 112))).
Lemma flags_all : forallb (fun '(byte, p) => forallb (fun i => flags_check byte p (N.of_nat i)) (seq 0 256)) first_octets = true.
Proof. vm_compute. reflexivity. Qed.
Lemma flags_ok byte p b : In (byte, p) first_octets -> byte <= b <= byte + N.ones p ->
  N.land b 128 = 0 /\ (0 <? N.land b 64) = (64 <=? byte) /\ (N.land b 64 =? 64) = (64 <=? byte) /\
  (N.land b 48 =? 32) = ((byte =? 32) || (byte =? 96))%bool /\
  (N.land b 48 =? 48) = ((byte =? 48) || (byte =? 112))%bool.
Proof.
  intros Hi Hb. pose proof flags_all as H. rewrite forallb_forall in H. specialize (H _ Hi). cbv beta in H.
  rewrite forallb_forall in H. specialize (H (N.to_nat b)).
  assert (Hr : b < 256).
  { unfold first_octets in Hi. simpl in Hi.
    repeat (destruct Hi as [Hi|Hi]; [injection Hi as <- <-; vm_compute N.ones in Hb; lia|]). contradiction. }
  assert (Hs : In (N.to_nat b) (seq 0 256)) by (apply in_seq; lia).
  specialize (H Hs). rewrite N2Nat.id in H. unfold flags_check in H.
  destruct (N.leb_spec byte b); [|lia]. destruct (N.leb_spec b (byte + N.ones p)); [|lia].
  cbn [andb negb orb] in H. rewrite !andb_true_iff in H. destruct H as ((((F1 & F2) & F3) & F4) & F5).
  apply N.eqb_eq in F1. apply eqb_prop in F2, F3, F4, F5. auto.
Qed.
