(** * HTTP/1 text: formatting and parsing. *)
From Coq Require Import String List NArith ZArith Bool Lia.
From Verif Require Import PyBase PyStr PyMerge Lib_Model Lib_Spec H1_Model.
Import ListNotations.
Open Scope N_scope.
Open Scope py_scope.

Section Strings.
Variable sp : N -> bool.
Variable low : str -> str.
Hypothesis Hsp : forall c, white c -> sp c = true.
Hypothesis Hvis : forall c, 33 <= c <= 126 -> sp c = false.

Lemma sp10 : sp 10 = true.
Proof. apply Hsp. right. lia. Qed.
Lemma sp32 : sp 32 = true.
Proof. apply Hsp. now left. Qed.
Lemma sp58 : sp 58 = false.
Proof. apply Hvis. lia. Qed.

Definition spaces (s : str) : Prop := Forall (fun c => sp c = true) s.

Lemma rstrip_spaces a s : spaces s -> rstrip sp (a ++ s) = rstrip sp a.
Proof.
  intros H. unfold rstrip. rewrite rev_app_distr, lstrip_app; [reflexivity|].
  apply Forall_forall. intros x Hx. apply in_rev in Hx. unfold spaces in H. rewrite Forall_forall in H. auto.
Qed.

Lemma lstrip_app_keep p a b : lstrip p a <> [] -> lstrip p (a ++ b) = lstrip p a ++ b.
Proof.
  induction a as [|x a IH]; cbn; intros H; [congruence|]. destruct (p x); [now apply IH|reflexivity].
Qed.

Lemma rstrip_keep a b : rstrip sp b <> [] -> rstrip sp (a ++ b) = a ++ rstrip sp b.
Proof.
  intros H. unfold rstrip in *. rewrite rev_app_distr, lstrip_app_keep.
  - now rewrite rev_app_distr, rev_involutive.
  - intros E. apply H. now rewrite E.
Qed.

Lemma rstrip_nonspace s x : In x s -> sp x = false -> rstrip sp s <> [].
Proof.
  intros Hin Hx E. destruct (rstrip_spec sp s) as (post & Es & Hp). rewrite E in Es. cbn in Es. subst post.
  rewrite Forall_forall in Hp. rewrite (Hp x Hin) in Hx. discriminate.
Qed.

(** The lines of the stripped text. *)
Lemma h1_lines w T0 Ts :
  spaces w -> ~ In 10 w ->
  (match T0 with [] => False | c :: _ => sp c = false end) ->
  Forall (fun t => ~ In 10 t /\ exists x, In x t /\ sp x = false) (T0 :: Ts) ->
  exists lines, split_on 10 (strip sp (T0 ++ w ++ [10] ++ flat_map (fun t : str => t ++ w ++ [10]) Ts ++ w ++ [10])) = lines /\
    Forall2 (fun l t => l = t ++ w \/ l = rstrip sp t) lines (T0 :: Ts).
Proof.
  intros Hw Hwn H0 HF.
  assert (Hm : forall T, T ++ w ++ [10] ++ flat_map (fun t : str => t ++ w ++ [10]) Ts ++ w ++ [10] =
     join [10] (map (fun t => t ++ w) (T :: Ts)) ++ ([10] ++ w ++ [10])).
  { clear. induction Ts as [|t ts IH]; intros T.
    - cbn [flat_map map join app]. now rewrite <- !app_assoc.
    - specialize (IH t). cbn [flat_map].
      change (join [10] (map (fun t => t ++ w) (T :: t :: ts))) with
        ((T ++ w) ++ [10] ++ join [10] (map (fun t => t ++ w) (t :: ts))).
      rewrite <- !app_assoc. do 3 f_equal. exact IH. }
  rewrite Hm.
  assert (Hs : spaces ([10] ++ w ++ [10])).
  { constructor; [apply sp10|]. apply Forall_app. split; [exact Hw|]. constructor; [apply sp10|constructor]. }
  unfold strip. rewrite lstrip_id.
  2:{ destruct T0 as [|c T0]; [destruct H0|]. destruct Ts; cbn; exact H0. }
  rewrite rstrip_spaces by exact Hs.
  clear Hm. remember (T0 :: Ts) as LL eqn:ELL. assert (HLL : LL <> []) by (subst; discriminate). clear ELL T0 Ts H0.
  destruct (exists_last HLL) as (init & last & ->). clear HLL. apply Forall_app in HF as [HFi HFl].
  inversion HFl as [|? ? [Hl (x & Hx & Hxs)] _]; subst. rewrite map_app. cbn [map].
  assert (Hlast : rstrip sp (last ++ w) = rstrip sp last) by now apply rstrip_spaces.
  assert (Hne : rstrip sp (last ++ w) <> []) by (rewrite Hlast; now apply (rstrip_nonspace last x)).
  exists (map (fun t => t ++ w) init ++ [rstrip sp last]). split.
  - assert (Ej : rstrip sp (join [10] (map (fun t => t ++ w) init ++ [last ++ w])) =
                 join [10] (map (fun t => t ++ w) init ++ [rstrip sp last])).
    { destruct init as [|i init]; [cbn; exact Hlast|].
      rewrite !join_snoc by discriminate. rewrite <- Hlast.
      rewrite (app_assoc _ [10] (last ++ w)), (app_assoc _ [10] (rstrip sp (last ++ w))). now apply rstrip_keep. }
    rewrite Ej. apply split_on_join.
    + destruct init; discriminate.
    + apply Forall_app. split.
      * apply Forall_forall. intros t Ht. apply in_map_iff in Ht as (t0 & <- & Ht0). rewrite Forall_forall in HFi.
        intros Hin. apply in_app_or in Hin as [Hin|Hin]; [now apply (HFi t0 Ht0)|contradiction].
      * constructor; [|constructor]. intros Hin. apply Hl. destruct (rstrip_spec sp last) as (post & E & _).
        rewrite E. apply in_or_app. now left.
  - apply Forall2_app.
    + clear. induction init; cbn; constructor; auto.
    + constructor; [now right|constructor].
Qed.

(** ** Names, tokens, texts *)
Definition plain_name (k : str) : Prop := k <> [] /\ low k = k /\ ~ In 10 k /\ ~ In 58 (tl k).
Definition token (s : str) : Prop := s <> [] /\ Forall (fun c => sp c = false) s.
Definition text (s : str) : Prop := ~ In 10 s /\ no_ends sp s.

Lemma split_line_plain k v : plain_name k ->
  match k ++ 58 :: v with
  | [] => False
  | c :: r => h1_split_line c r = Ok (k, v)
  end.
Proof.
  intros (Hk & _ & _ & H58). destruct k as [|c k]; [congruence|]. cbn [tl] in H58. cbn [app]. unfold h1_split_line.
  destruct (N.eqb_spec c 58) as [->|Hc].
  - rewrite split_once_app by exact H58. reflexivity.
  - change (c :: k ++ 58 :: v) with ((c :: k) ++ 58 :: v). rewrite split_once_app; [reflexivity|].
    intros [H|H]; [congruence|contradiction].
Qed.

Lemma parse_lines_spec lines P : Forall2 (fun l kv => exists rest, l = fst kv ++ 58 :: rest /\ strip sp rest = snd kv) lines P ->
  Forall (fun kv => plain_name (fst kv)) P ->
  forall out, parse_lines sp low lines out = Ok (fold_left (merge_step (fun _ => 0)) P out).
Proof.
  induction 1 as [|l [k v] lines P (rest & -> & Hs) _ IH]; intros HF out; cbn [parse_lines fold_left]; [reflexivity|].
  inversion HF as [|? ? Hp HF']; subst. cbn [fst snd] in *. pose proof (split_line_plain k rest Hp) as HL.
  destruct (k ++ 58 :: rest) as [|c r]; [destruct HL|]. rewrite HL. cbn [bind].
  destruct Hp as (_ & Hlow & _). rewrite Hlow, Hs. now apply IH.
Qed.

Lemma span_spec p a x b : Forall (fun c => p c = true) a -> p x = false -> span p (a ++ x :: b) = (a, x :: b).
Proof.
  induction 1 as [|c a Hc _ IH]; intros Hx; cbn; [now rewrite Hx|]. rewrite Hc, (IH Hx). reflexivity.
Qed.

Lemma lstrip_token t s : token t -> lstrip sp (t ++ s) = t ++ s.
Proof. intros [Hn Hf]. apply lstrip_id. destruct t; [congruence|]. now inversion Hf. Qed.

Lemma split_ws_top t0 t1 t2 s : token t0 -> token t1 -> t2 <> [] -> no_ends sp t2 -> spaces s ->
  split_ws sp 2 (t0 ++ [32] ++ t1 ++ [32] ++ t2 ++ s) = [t0; t1; t2 ++ s].
Proof.
  intros H0 H1 H2 H2e Hs. 
  assert (Hspan : forall t r, token t -> span (fun c => negb (sp c)) (t ++ 32 :: r) = (t, 32 :: r)).
  { intros t r [_ Ht]. apply span_spec; [|now rewrite sp32]. eapply Forall_impl; [|exact Ht]. cbv beta. intros c ->. reflexivity. }
  cbn [split_ws app]. rewrite lstrip_token by exact H0. 
  destruct (t0 ++ 32 :: t1 ++ 32 :: t2 ++ s) as [|c r] eqn:E; [destruct t0; discriminate|]. rewrite <- E. rewrite Hspan by exact H0.
  f_equal. replace (lstrip sp (32 :: t1 ++ 32 :: t2 ++ s)) with (lstrip sp (t1 ++ 32 :: t2 ++ s)) by (cbn [lstrip]; now rewrite sp32).
  rewrite lstrip_token by exact H1. destruct (t1 ++ 32 :: t2 ++ s) as [|c1 r1] eqn:E1; [destruct t1; discriminate|].
  rewrite <- E1. rewrite Hspan by exact H1. f_equal.
  replace (lstrip sp (32 :: t2 ++ s)) with (lstrip sp (t2 ++ s)) by (cbn [lstrip]; now rewrite sp32).
  rewrite lstrip_id.
  - destruct (t2 ++ s) eqn:E2; [destruct t2; [congruence|discriminate]|reflexivity].
  - destruct t2 as [|a t2]; [congruence|]. cbn. now destruct H2e.
Qed.

Lemma strip_text_spaces t s : no_ends sp t -> spaces s -> strip sp (t ++ s) = t.
Proof. intros H Hs. change (t ++ s) with ([] ++ t ++ s). apply strip_unique; auto; constructor. Qed.

Lemma rstrip_text t a : t <> [] -> no_ends sp t -> rstrip sp (a ++ t) = a ++ t.
Proof.
  intros Hn [_ H]. apply rstrip_id. rewrite rev_app_distr.
  destruct (rev t) as [|x r] eqn:E; [|exact H]. apply (f_equal (@rev N)) in E. rewrite rev_involutive in E. cbn in E. congruence.
Qed.

(** ** The header lines *)
Section Generic.
  Variable w b host : str.
  Hypothesis Hw : spaces w.
  Hypothesis Hwn : ~ In 10 w.
  Hypothesis Hb : spaces b.
  Hypothesis Hbn : ~ In 10 b.
  Hypothesis Hhost : plain_name host.

  Definition hk (k : str) : str := if str_eqb k (lit ":host") then host else k.

  (** The pairs written. *)
  Definition pairs (avoid : list str) (d : hdict) : list (str * str) :=
    flat_map (fun kv => if mem_str (fst kv) avoid then [] else map (pair (hk (fst kv))) (split_on 0 (snd kv))) d.

  Definition good_headers (avoid : list str) (d : hdict) : Prop :=
    forall k v, In (k, v) d -> ~ In k avoid -> plain_name k /\ forall x, In x (split_on 0 v) -> text x.

  Lemma pairs_text avoid d :
    flat_map (fun kv => if mem_str (fst kv) avoid then [] else h1_header (w ++ [10]) (58 :: b) host kv) d =
    flat_map (fun t : str => t ++ w ++ [10]) (map (fun kv : str * str => fst kv ++ 58 :: b ++ snd kv) (pairs avoid d)).
  Proof.
    induction d as [|[k v] d IH]; cbn [flat_map]; [reflexivity|]. unfold pairs in *. cbn [flat_map fst snd].
    rewrite map_app, flat_map_app. etransitivity; [apply f_equal, IH|]. f_equal. destruct (mem_str k avoid); [reflexivity|].
    unfold h1_header. cbn [fst snd]. fold (hk k). induction (split_on 0 v) as [|x xs IHx]; cbn [flat_map map]; [reflexivity|].
    rewrite <- IHx. f_equal. cbn [fst snd app]. rewrite <- !app_assoc. cbn [app]. now rewrite <- !app_assoc.
  Qed.

  Lemma pairs_good avoid d : good_headers avoid d -> Forall (fun kv => plain_name (fst kv) /\ text (snd kv)) (pairs avoid d).
  Proof.
    intros H. apply Forall_forall. intros [k x] Hin. unfold pairs in Hin. apply in_flat_map in Hin as ([k0 v] & Hd & Hx).
    cbn [fst snd] in *. destruct (mem_str_spec k0 avoid) as [|Hna]; [destruct Hx|]. apply in_map_iff in Hx as (y & [= <- <-] & Hy).
    destruct (H k0 v Hd Hna) as [A B]. split; [|now apply B]. unfold hk. now destruct (str_eqb k0 (lit ":host")).
  Qed.

  (** Looking up what was written. *)
  Lemma vals_pairs avoid d k : is_dict d -> ~ In host (keys d) -> host <> lit ":host" -> ~ In (lit ":host") avoid -> ~ In host avoid ->
    joinsep 0 (vals k (pairs avoid d)) =
    if str_eqb k host then dget d (lit ":host")
    else if str_eqb k (lit ":host") then None
    else if mem_str k avoid then None else dget d k.
  Proof.
    intros HD Hnh Hne Hna Hnah.
    assert (Hpm : forall k0 v, vals k (map (pair k0) (split_on 0 v)) = if str_eqb k0 k then split_on 0 v else []).
    { intros k0 v. induction (split_on 0 v) as [|x xs IHx]; cbn [map]; [now destruct (str_eqb k0 k)|].
      rewrite vals_cons, IHx. cbn [fst snd]. now destruct (str_eqb k0 k). }
    assert (Hj : forall v, joinsep 0 (split_on 0 v) = Some v).
    { intros v. unfold joinsep. rewrite join_split. destruct (split_on 0 v) eqn:E; [|reflexivity]. now apply split_on_nonempty in E. }
    (* names that do not occur *)
    assert (Hno : forall d', (forall k0, In k0 (keys d') -> mem_str k0 avoid = true \/ hk k0 <> k) -> vals k (pairs avoid d') = []).
    { induction d' as [|[k0 v] d' IH]; intros H; [reflexivity|]. unfold pairs in *. cbn [flat_map fst snd]. rewrite vals_app, IH by (intros; apply H; now right).
      rewrite app_nil_r. destruct (H k0 (or_introl eq_refl)) as [->|Hk]; [reflexivity|].
      destruct (mem_str k0 avoid); [reflexivity|]. rewrite Hpm. destruct (str_eqb_spec (hk k0) k); [contradiction|reflexivity]. }
    (* the unique name that is written as k *)
    assert (Hyes : forall k0, hk k0 = k -> mem_str k0 avoid = false -> (forall k1, In k1 (keys d) -> hk k1 = k -> k1 = k0) ->
              joinsep 0 (vals k (pairs avoid d)) = dget d k0).
    { intros k0 Hk0 Ha Hu. clear Hnh. revert HD Hu. induction d as [|[k1 v] d' IH]; intros HD Hu; [reflexivity|].
      unfold pairs. cbn [flat_map fst snd dget]. fold (pairs avoid d'). rewrite vals_app.
      inversion HD as [|? ? Hnot HD']; subst.
      destruct (str_eqb_spec k0 k1) as [<-|Hd].
      - rewrite Ha, Hpm, str_eqb_refl, Hno, app_nil_r; [apply Hj|].
        intros k2 Hk2. right. intros E. apply Hnot. rewrite <- (Hu k2); auto. now right.
      - assert (E0 : vals (hk k0) (if mem_str k1 avoid then [] else map (pair (hk k1)) (split_on 0 v)) = []).
        { destruct (mem_str k1 avoid); [reflexivity|]. rewrite Hpm. destruct (str_eqb_spec (hk k1) (hk k0)) as [E|]; [|reflexivity].
          exfalso. apply Hd. symmetry. apply Hu; [now left|exact E]. }
        rewrite E0. cbn [app]. apply IH; auto. intros k2 Hk2 E. apply Hu; [now right|exact E]. }
    assert (Hhk : forall k1, In k1 (keys d) -> hk k1 = host -> k1 = lit ":host").
    { intros k1 H1 E. unfold hk in E. destruct (str_eqb_spec k1 (lit ":host")) as [E1|_]; [exact E1|]. subst k1. contradiction. }
    destruct (str_eqb_spec k host) as [Ek|Hk].
    - apply Hyes.
      + unfold hk. rewrite str_eqb_refl. now symmetry.
      + destruct (mem_str_spec (lit ":host") avoid); [contradiction|reflexivity].
      + intros k1 H1 E. apply Hhk; [exact H1|congruence].
    - destruct (str_eqb_spec k (lit ":host")) as [Ek|Hk2].
      + rewrite Hno; [reflexivity|]. intros k0 _. right. unfold hk. destruct (str_eqb_spec k0 (lit ":host")); congruence.
      + destruct (mem_str_spec k avoid) as [Ha|Ha].
        * rewrite Hno; [reflexivity|]. intros k0 _. unfold hk. destruct (str_eqb_spec k0 (lit ":host")) as [E|_]; [right; congruence|].
          destruct (str_eq_dec k0 k) as [->|]; [|now right]. left. now destruct (mem_str_spec k avoid).
        * apply Hyes.
          -- unfold hk. destruct (str_eqb_spec k (lit ":host")); [contradiction|reflexivity].
          -- destruct (mem_str_spec k avoid); [contradiction|reflexivity].
          -- intros k1 H1 E. unfold hk in E. destruct (str_eqb_spec k1 (lit ":host")); [congruence|exact E].
  Qed.

  (** The whole text: top line t0 t1 t2. *)
  Lemma parse_msg avoid d t0 t1 t2 :
    token t0 -> token t1 -> t2 <> [] -> text t2 -> good_headers avoid d ->
    let msg := (t0 ++ [32] ++ t1 ++ [32] ++ t2 ++ w ++ [10]) ++
       flat_map (fun kv => if mem_str (fst kv) avoid then [] else h1_header (w ++ [10]) (58 :: b) host kv) d ++ w ++ [10] in
    exists first lines s, split_on 10 (strip sp msg) = first :: lines /\
      split_ws sp 2 first = [t0; t1; t2 ++ s] /\ spaces s /\
      forall out, parse_lines sp low lines out = Ok (fold_left (merge_step (fun _ => 0)) (pairs avoid d) out).
  Proof.
    intros H0 H1 H2 H2t HG msg. unfold msg. clear msg. rewrite pairs_text.
    pose proof (pairs_good avoid d HG) as HP. set (P := pairs avoid d) in *.
    set (T0 := t0 ++ [32] ++ t1 ++ [32] ++ t2).
    replace ((t0 ++ [32] ++ t1 ++ [32] ++ t2 ++ w ++ [10]) ++ flat_map (fun t : str => t ++ w ++ [10]) (map (fun kv : str * str => fst kv ++ 58 :: b ++ snd kv) P) ++ w ++ [10])
      with (T0 ++ w ++ [10] ++ flat_map (fun t : str => t ++ w ++ [10]) (map (fun kv : str * str => fst kv ++ 58 :: b ++ snd kv) P) ++ w ++ [10])
      by (unfold T0; now rewrite <- !app_assoc).
    assert (Hspt : forall t x, token t -> In x t -> sp x = false).
    { intros t x [_ Ht] Hx. rewrite Forall_forall in Ht. auto. }
    assert (Hnl : forall t, token t -> ~ In 10 t). { intros t Ht Hx. apply (Hspt t 10 Ht) in Hx. rewrite sp10 in Hx. discriminate. }
    destruct (h1_lines w T0 (map (fun kv : str * str => fst kv ++ 58 :: b ++ snd kv) P) Hw Hwn) as (ls & E & HF).
    - unfold T0. destruct H0 as [Hn Hf]. destruct t0 as [|c t0]; [congruence|]. cbn. now inversion Hf.
    - constructor.
      + split.
        * unfold T0. rewrite !in_app_iff. cbn. pose proof (Hnl t0 H0). pose proof (Hnl t1 H1). destruct H2t as [? _].
          intuition discriminate.
        * destruct H0 as [Hn Hf]. destruct t0 as [|c t0]; [congruence|]. exists c. inversion Hf; subst. split; [now left|assumption].
      + apply Forall_forall. intros t Ht. apply in_map_iff in Ht as ([k v] & <- & Hkv). rewrite Forall_forall in HP.
        destruct (HP _ Hkv) as [(_ & _ & Hk & _) [Hv _]]. cbn [fst snd] in *. split.
        * rewrite in_app_iff. cbn. rewrite in_app_iff. intuition discriminate.
        * exists 58. split; [|apply sp58]. apply in_or_app. right. now left.
    - inversion HF as [|first ? lines ? Hfirst Hlines E1 E2]; subst.
      assert (HT0 : rstrip sp T0 = T0).
      { unfold T0. rewrite !app_assoc. apply rstrip_text; [exact H2|apply H2t]. }
      assert (Hf : exists s, spaces s /\ first = T0 ++ s).
      { destruct Hfirst as [->| ->]; [exists w; auto|]. exists []. rewrite HT0, app_nil_r. split; [constructor|reflexivity]. }
      destruct Hf as (s & Hs & Ef). exists first, lines, s. split; [now rewrite <- E1|]. split.
      { rewrite Ef. unfold T0. rewrite <- !app_assoc. apply split_ws_top; auto. apply H2t. }
      split; [exact Hs|]. intros out. apply parse_lines_spec.
      + clear -Hlines HP Hw Hb Hvis. revert lines Hlines. induction P as [|[k v] P IH]; intros lines Hl; inversion Hl as [|l ? ls ? Hl1 Hl2]; subst; constructor.
        * inversion HP as [|? ? [_ [_ Hv]] _]; subst. cbn [fst snd] in *. destruct Hl1 as [->| ->].
          -- exists (b ++ v ++ w). split; [rewrite <- app_assoc; cbn [app]; now rewrite <- !app_assoc|]. now apply strip_unique.
          -- destruct v as [|c v].
             ++ exists []. split; [|reflexivity]. rewrite app_nil_r.
                replace (k ++ 58 :: b) with ((k ++ [58]) ++ b) by (now rewrite <- app_assoc).
                rewrite rstrip_spaces by exact Hb. apply rstrip_text; [discriminate|split; apply sp58].
             ++ exists (b ++ c :: v). split.
                ** replace (k ++ 58 :: b ++ c :: v) with ((k ++ 58 :: b) ++ c :: v) by (now rewrite <- app_assoc).
                   rewrite rstrip_text; [|discriminate|exact Hv]. now rewrite <- app_assoc.
                ** rewrite <- (app_nil_r (c :: v)) at 1. apply strip_unique; auto.
        * apply IH; [now inversion HP|exact Hl2].
      + eapply Forall_impl; [|exact HP]. intros kv [H _]. exact H.
  Qed.
End Generic.

(** ** Requests and responses *)
Definition req_avoid : list str := [lit ":method"; lit ":path"; lit ":version"].
Definition res_avoid : list str := [lit ":version"; lit ":status"; lit ":status-text"].

Definition good_text_line (s : str) : Prop := s <> [] /\ text s.

Ltac decide_names :=
  repeat match goal with
  | |- context [str_eqb (lit ?a) (lit ?b)] => let v := eval vm_compute in (str_eqb (lit a) (lit b)) in change (str_eqb (lit a) (lit b)) with v
  end; cbv iota.

Lemma dget_is d k v : is_dict (d : hdict) -> dget d k = Some v -> In (k, v) d.
Proof. intros _. apply dget_in. Qed.

Section Roundtrip.
  Variable w b host version : str.
  Hypothesis Hw : spaces w.
  Hypothesis Hwn : ~ In 10 w.
  Hypothesis Hb : spaces b.
  Hypothesis Hbn : ~ In 10 b.
  Hypothesis Hhost : plain_name host.
  Hypothesis Hhost1 : hd 0 host <> 58.

  Lemma host_not_pseudo a : host <> 58 :: a.
  Proof. intros E. apply Hhost1. now rewrite E. Qed.

  Lemma request_roundtrip d m p :
    is_dict d -> ~ In host (keys d) ->
    dget d (lit ":method") = Some m -> token m ->
    dget d (lit ":path") = Some p -> token p ->
    good_text_line (get_or d (lit ":version") version) ->
    good_headers req_avoid d ->
    exists d', parse_http1_in sp low (format_http1 d (w ++ [10]) (58 :: b) host version) true host = Ok d' /\ is_dict d' /\
      forall k, dget d' k = if str_eqb k (lit ":version") then Some (get_or d (lit ":version") version) else dget d k.
  Proof.
    intros HD Hnh Hm Hmt Hp Hpt [Hv1 Hv2] HG.
    unfold format_http1. unfold din. rewrite Hm. unfold get_or at 1 2. rewrite Hm, Hp.
    destruct (parse_msg w b host Hw Hwn Hb Hbn Hhost req_avoid d m p _ Hmt Hpt Hv1 Hv2 HG) as (first & lines & s & E1 & E2 & Hs & E3).
    fold req_avoid. unfold parse_http1_in.
    match goal with |- context [split_on 10 (strip sp ?x)] => match type of E1 with split_on 10 (strip sp ?y) = _ => replace x with y by (now rewrite <- !app_assoc) end end.
    rewrite E1, E3. cbn [bind]. rewrite E2. rewrite strip_text_spaces by (apply Hv2 || exact Hs).
    set (out := fold_left _ _ _). destruct (merge_spec (fun _ => 0) (pairs host req_avoid d)) as [HDo HO].
    fold out in HDo, HO.
    assert (Hne : forall a, host <> lit ":" ++ a) by (intros a; apply host_not_pseudo).
    assert (Hav : ~ In host req_avoid).
    { intros [H|[H|[H|[]]]]; symmetry in H; revert H; [apply (Hne (lit "method"))|apply (Hne (lit "path"))|apply (Hne (lit "version"))]. }
    assert (HO' : forall k, dget out k = if str_eqb k host then dget d (lit ":host")
       else if str_eqb k (lit ":host") then None else if mem_str k req_avoid then None else dget d k).
    { intros k. rewrite HO. apply vals_pairs; auto.
      - apply (Hne (lit "host")).
      - intros [H|[H|[H|[]]]]; discriminate. }
    clearbody out. clear HO E1 E2 E3.
    set (out3 := dset (dset (dset out _ _) _ _) _ _).
    assert (HD3 : is_dict out3) by (unfold out3; now repeat apply is_dict_dset).
    assert (H3 : forall k, dget out3 k = if str_eqb k (lit ":version") then Some (get_or d (lit ":version") version)
        else if str_eqb k (lit ":path") then Some p else if str_eqb k (lit ":method") then Some m else dget out k).
    { intros k. unfold out3. now rewrite !dget_dset. }
    assert (Hh3 : dget out3 host = dget d (lit ":host")).
    { rewrite H3, HO', str_eqb_refl.
      destruct (str_eqb_spec host (lit ":version")) as [E|_]; [now apply (Hne (lit "version")) in E|].
      destruct (str_eqb_spec host (lit ":path")) as [E|_]; [now apply (Hne (lit "path")) in E|].
      destruct (str_eqb_spec host (lit ":method")) as [E|_]; [now apply (Hne (lit "method")) in E|]. reflexivity. }
    rewrite Hh3. clearbody out3.
    assert (Hfin : forall k, k <> host -> k <> lit ":host" ->
       dget out3 k = (if str_eqb k (lit ":version") then Some (get_or d (lit ":version") version) else dget d k)).
    { intros k Hk1 Hk2. rewrite H3, HO'. destruct (str_eqb_spec k (lit ":version")) as [E|Hver]; [reflexivity|].
      destruct (str_eqb_spec k (lit ":path")) as [E|Hpath]; [now rewrite E, Hp|].
      destruct (str_eqb_spec k (lit ":method")) as [E|Hmeth]; [now rewrite E, Hm|].
      destruct (str_eqb_spec k host) as [E|_]; [contradiction|]. destruct (str_eqb_spec k (lit ":host")) as [E|_]; [contradiction|].
      destruct (mem_str_spec k req_avoid) as [[E|[E|[E|[]]]]|_]; try (exfalso; congruence). reflexivity. }
    assert (Hdh : dget d host = None) by now apply dget_none.
    assert (Hvh : str_eqb host (lit ":version") = false).
    { destruct (str_eqb_spec host (lit ":version")) as [E|_]; [now apply (Hne (lit "version")) in E|reflexivity]. }
    assert (Hhv : str_eqb (lit ":host") (lit ":version") = false) by reflexivity.
    destruct (dget d (lit ":host")) as [h|] eqn:Eh.
    - eexists. split; [reflexivity|]. split; [now apply is_dict_ddel, is_dict_dset|].
      intros k. rewrite dget_ddel by now apply is_dict_dset. rewrite dget_dset.
      destruct (str_eqb_spec k host) as [E|Hk]; [rewrite E, Hvh; now symmetry|].
      destruct (str_eqb_spec k (lit ":host")) as [E|Hk2]; [rewrite E, Hhv; now symmetry|]. now apply Hfin.
    - exists out3. split; [reflexivity|]. split; [exact HD3|]. intros k.
      destruct (str_eq_dec k host) as [E|Hk]; [rewrite E, Hvh; now rewrite Hh3|].
      destruct (str_eq_dec k (lit ":host")) as [E|Hk2].
      + rewrite E, Hhv, Eh, H3, HO'. decide_names.
        destruct (str_eqb_spec (lit ":host") host) as [E0|_]; [symmetry in E0; now apply (Hne (lit "host")) in E0|]. reflexivity.
      + now apply Hfin.
  Qed.

  Lemma response_roundtrip d st :
    is_dict d -> ~ In (lit ":host") (keys d) -> ~ In host (keys d) -> dget d (lit ":method") = None ->
    token (get_or d (lit ":version") version) ->
    dget d (lit ":status") = Some st -> token st ->
    good_text_line (get_or d (lit ":status-text") (lit "?")) ->
    good_headers res_avoid d ->
    exists d', parse_http1_in sp low (format_http1 d (w ++ [10]) (58 :: b) host version) false host = Ok d' /\ is_dict d' /\
      forall k, dget d' k = if str_eqb k (lit ":version") then Some (get_or d (lit ":version") version)
        else if str_eqb k (lit ":status-text") then Some (get_or d (lit ":status-text") (lit "?")) else dget d k.
  Proof.
    intros HD Hnph Hnh Hm Hvt Hs Hst [Hv1 Hv2] HG.
    unfold format_http1. unfold din. rewrite Hm. unfold get_or at 2. rewrite Hs.
    destruct (parse_msg w b host Hw Hwn Hb Hbn Hhost res_avoid d _ st _ Hvt Hst Hv1 Hv2 HG) as (first & lines & s & E1 & E2 & Hss & E3).
    fold res_avoid. unfold parse_http1_in.
    match goal with |- context [split_on 10 (strip sp ?x)] => match type of E1 with split_on 10 (strip sp ?y) = _ => replace x with y by (now rewrite <- !app_assoc) end end.
    rewrite E1, E3. cbn [bind]. rewrite E2. rewrite strip_text_spaces by (apply Hv2 || exact Hss).
    set (out := fold_left _ _ _). destruct (merge_spec (fun _ => 0) (pairs host res_avoid d)) as [HDo HO].
    fold out in HDo, HO.
    assert (Hne : forall a, host <> lit ":" ++ a) by (intros a; apply host_not_pseudo).
    assert (Hav : ~ In host res_avoid).
    { intros [H|[H|[H|[]]]]; symmetry in H; revert H; [apply (Hne (lit "version"))|apply (Hne (lit "status"))|apply (Hne (lit "status-text"))]. }
    assert (HO' : forall k, dget out k = if mem_str k res_avoid then None else dget d k).
    { intros k. rewrite HO, vals_pairs; auto.
      - apply dget_none in Hnph. apply dget_none in Hnh. rewrite Hnph.
        destruct (str_eqb_spec k host) as [E|_]; [rewrite E, Hnh; now destruct (mem_str host res_avoid)|].
        destruct (str_eqb_spec k (lit ":host")) as [E|_]; [rewrite E, Hnph; now destruct (mem_str (lit ":host") res_avoid)|]. reflexivity.
      - apply (Hne (lit "host")).
      - intros [H|[H|[H|[]]]]; discriminate. }
    eexists. split; [reflexivity|]. split; [now repeat apply is_dict_dset|]. intros k. rewrite !dget_dset, HO'.
    destruct (str_eqb_spec k (lit ":version")) as [E|Hver]; [rewrite E; now decide_names|].
    destruct (str_eqb_spec k (lit ":status-text")) as [E|Htxt]; [reflexivity|].
    destruct (str_eqb_spec k (lit ":status")) as [E|Hstat]; [now rewrite E, Hs|].
    destruct (mem_str_spec k res_avoid) as [[E|[E|[E|[]]]]|_]; try (exfalso; congruence). reflexivity.
  Qed.
End Roundtrip.
End Strings.
