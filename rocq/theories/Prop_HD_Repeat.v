(** * C85: what headers cost in headerdiff when the message before carried
    them. *)
From Coq Require Import String List NArith ZArith Bool Lia Permutation.
From Verif Require Import PyBase PyStr HD_Model HD_Spec HD_Sim HD_Repeat.
Import ListNotations.
Open Scope N_scope.

(** Every header of the session is one of [pool]; the values of the pool fit
    in the buffer (headerdiff counts values only); no two different headers
    of the pool have the same text (C11). *)
Definition hd_fits (cfg : hcfg) (pool : list hdr) (ms : list msg) : Prop :=
  (held pool < h_max cfg)%Z /\ N.of_nat (length pool) <= 16447 /\
  (forall h, In h (all_headers ms) -> In h pool) /\
  (forall a b, In a pool -> In b pool -> same_text a b -> a = b).

Theorem C85_repeat : forall ord cfg pool ms q m more e fs,
  some_order ord ->
  hd_fits cfg pool (ms ++ [(q, m)]) ->
  (* small buffers: a request names each header once *)
  (q = true -> (h_max cfg < 10000)%Z -> NoDup (map fst m)) ->
  (* without delta coding :path is always a literal *)
  (h_delta cfg = false -> forall h, In h m -> fst h <> lit ":path") ->
  enc_all ord cfg henc_new (ms ++ [(q, m)]) = (e, Ok fs) ->
  (* further messages, made of headers of [m] *)
  (forall m', In m' more -> (length (snd m') <= 255)%nat /\ incl (snd m') m) ->
  exists e' fs', enc_all ord cfg e more = (e', Ok fs') /\
    Forall2 (fun f m' => (9 + length (snd m') <= length f <= 9 + 2 * length (snd m'))%nat /\
                         ((length pool <= 64)%nat -> length f = (9 + length (snd m'))%nat)) fs' more.
Proof.
  intros ord cfg pool ms q m more e fs Hord (Hroom & Hlen & Hin & Hdist) Hnames Hpath E Hmore.
  assert (Hall : Forall (fun m => incl (snd m) pool) (ms ++ [(q, m)])).
  { apply Forall_forall. intros x Hx h Hh. apply Hin. unfold all_headers. apply in_flat_map. eauto. }
  apply Forall_app in Hall as [Hms Hm]. inversion Hm as [|? ? Hm1 _]; subst. cbn [snd] in Hm1.
  destruct (enc_all_snoc _ _ _ _ _ _ _ _ E) as (e1 & fs1 & f1 & E1 & E2 & _).
  pose proof (enc_all_fit ord Hord cfg pool Hroom Hdist ms Hms _ _ _ (new_fit pool) E1) as HF1.
  destruct (encode_fit ord Hord cfg pool Hroom Hdist _ _ _ _ _ HF1 Hm1 E2) as [HF Hhas].
  assert (Hpres : incl m (hds e)).
  { intros h Hh. apply Hhas; auto.
    - intros [Hq Hx]. auto.
    - unfold storable. destruct (h_delta cfg) eqn:Hd; auto. }
  clear E E1 E2 HF1 Hhas. revert e HF Hpres. induction more as [|[q' m'] more IH]; intros e HF Hpres; cbn [enc_all].
  - do 2 eexists. split; [reflexivity|constructor].
  - destruct (Hmore (q', m') (or_introl eq_refl)) as [Hl Hi]. cbn [snd] in Hl, Hi.
    destruct (encode_present ord cfg pool Hdist q' e m' HF Hlen Hl) as (e2 & f & Ef & L & M & HF2 & H2).
    { intros x Hx. auto. }
    rewrite Ef. destruct (IH (fun x Hx => Hmore x (or_intror Hx)) e2 HF2) as (e3 & fs3 & E3 & HF3).
    { now rewrite H2. }
    rewrite E3. do 2 eexists. split; [reflexivity|]. constructor; [cbn [snd]; auto|exact HF3].
Qed.
Print Assumptions C85_repeat.

Definition as_is (t : nat) (l : list ih) : list ih := l.
Definition hd_page : list hdr :=
  [(lit ":method", lit "get"); (lit ":path", lit "/index.html"); (lit ":host", lit "example.org");
   (lit "cookie", lit "id=0123456789")].

(** Delta coding on, small buffer; lengths of the frames. *)
Example C85_example :
  hd_fits (plain_cfg 4096 true DFull) (hd_page ++ [(lit ":path", lit "/other")])
    ([(true, [(lit ":path", lit "/other")])] ++ [(true, hd_page)]) /\
  NoDup (map fst hd_page) /\
  exists e fs, enc_all as_is (plain_cfg 4096 true DFull) henc_new
      [(true, [(lit ":path", lit "/other")]); (true, hd_page); (true, hd_page); (true, rev hd_page)] = (e, Ok fs) /\
    map (@length N) fs = [17; 55; 13; 13]%nat.
Proof.
  split.
  { split; [vm_compute; reflexivity|]. split; [vm_compute; discriminate|]. split.
    - intros h Hh. apply in_or_app. cbn in Hh. cbn. tauto.
    - intros a b Ha Hb Hs.
      assert (Hc : forallb (fun a => forallb (fun b => negb (str_eqb (fst a ++ snd a) (fst b ++ snd b)) ||
                 (str_eqb (fst a) (fst b) && str_eqb (snd a) (snd b)))
                 (hd_page ++ [(lit ":path", lit "/other")])) (hd_page ++ [(lit ":path", lit "/other")]) = true)
        by (vm_compute; reflexivity).
      rewrite forallb_forall in Hc. specialize (Hc a Ha). cbv beta in Hc. rewrite forallb_forall in Hc.
      specialize (Hc b Hb). cbv beta in Hc. apply orb_prop in Hc as [Hc|Hc].
      + exfalso. unfold same_text in Hs. apply negb_true_iff in Hc.
        assert (X : str_eqb (fst a ++ snd a) (fst b ++ snd b) = true) by (rewrite Hs; apply str_eqb_refl').
        exact (eq_true_false_abs _ X Hc).
      + apply andb_prop in Hc as [Hc1 Hc2].
        destruct a as [a1 a2], b as [b1 b2]. cbn [fst snd] in Hc1, Hc2.
        destruct (str_eqb_spec a1 b1); [|discriminate]. destruct (str_eqb_spec a2 b2); [|discriminate]. congruence. }
  split. { repeat constructor; cbn; intuition discriminate. }
  do 2 eexists. split; vm_compute; reflexivity.
Qed.

(** ** In a small buffer two headers of one name push each other out: the
    two cookies cost more than two octets in every repetition, although
    nearly all of the buffer is free. *)
Definition two_cookies : list hdr := [(lit "cookie", lit "session=1"); (lit "cookie", lit "session=2")].

Theorem C85_repeated_name_refuted :
  exists m, NoDup m /\ (held m < 20)%Z /\
    exists e fs, enc_all as_is (plain_cfg 4096 true DFull) henc_new (repeat (true, m) 6) = (e, Ok fs) /\
      Forall (fun f => (9 + 2 * length m < length f)%nat) fs.
Proof.
  exists two_cookies. split. { repeat constructor; cbn; intuition discriminate. }
  split; [vm_compute; reflexivity|].
  do 2 eexists. split; [vm_compute; reflexivity|]. repeat constructor.
Qed.
Print Assumptions C85_repeated_name_refuted.

(** ** Without room headers stay literals. *)
Theorem C85_room_needed_refuted :
  exists m, NoDup (map fst m) /\
    exists e fs, enc_all as_is (plain_cfg 16 true DFull) henc_new (repeat (true, m) 4) = (e, Ok fs) /\
      Forall (fun f => (9 + 2 * length m < length f)%nat) fs.
Proof.
  exists hd_page. split. { repeat constructor; cbn; intuition discriminate. }
  do 2 eexists. split; [vm_compute; reflexivity|]. cbn. repeat constructor.
Qed.
Print Assumptions C85_room_needed_refuted.
