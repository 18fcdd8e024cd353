(** * Property C25: delta2's memory limits. *)
From Coq Require Import String List NArith ZArith Bool Arith Lia.
From Verif Require Import PyBase PyStr Lib_Model D2Huff_Model D2Store_Model D2Wire_Model D2Code_Model D2Code_Store D2Code_Exec D2Code_Round D2Code_Bytes Prop_D2Code.
Import ListNotations.
Open Scope Z_scope.
Open Scope py_scope.

(** A codec object that has sent and received anything: messages it encoded,
    and instructions of any peer, right or wrong, that it executed. *)
Inductive used (o : options) : code -> Prop :=
| used_new k : code_new o = Ok k -> used o k
| used_send k ord headers gid k' is : used o k -> make_operations ord k headers gid = Ok (k', is) -> used o k'
| used_receive k ref ops gid k' out : used o k -> execute_ops ref k ops gid = Ok (k', out) -> used o k'.

(** The limits: the parameters of the codec, or 1024 entries and 4096 octets. *)
Definition entry_limit (o : options) : Z := Z.max 0 (match o_max_entries o with Some m => m | None => 1024 end).
Definition octet_limit (o : options) : Z := Z.max 0 (match o_max_byte_size o with Some m => m | None => 4096 end).

(** What the dynamic table holds. *)
Definition held (k : code) : list (str * str) := map (fun e => (kv_key (fst e), kv_val (fst e))) (l_ring (s_lru (k_store k))).
Definition sum (l : list nat) : Z := fold_right (fun n a => Z.of_nat n + a) 0 l.
Definition value_octets (k : code) : Z := sum (map (fun p => length (snd p)) (held k)).
Definition octets (k : code) : Z := sum (map (fun p => length (fst p) + length (snd p))%nat (held k)).

Lemma used_inv o k : used o k -> k_cfg k = config o /\ exists G, tinv (k_cfg k) G (k_store k).
Proof.
  intros H. induction H as [k E|k ord headers gid k' is H [C (G & T)] E|k ref ops gid k' out H [C (G & T)] E].
  - now apply new_bytes.
  - unfold make_operations in E. cbv zeta in E. destruct (keep_loop _ _ _ _) as [[hs done]|]; [|discriminate]. cbn [bind] in E.
    destruct (mapm _ _) as [is'|]; [|discriminate]. cbn [bind] in E. destruct (execute_ops _ _ _ gid) as [[k2 out]|] eqn:Ex; [|discriminate]. cbn [bind] in E.
    injection E as <- _. assert (Hc : cfg_ok (k_cfg k)) by (rewrite C; apply config_ok).
    destruct (execute_bytes _ (mk_code (k_cfg k) (k_store k) (find_or_make (k_groups k) gid)) _ _ _ _ G Hc T Ex) as [E1 E2]. split; [exact (eq_trans E1 C)|exact E2].
  - assert (Hc : cfg_ok (k_cfg k)) by (rewrite C; apply config_ok). destruct (execute_bytes _ _ _ _ _ _ G Hc T E) as [E1 E2]. split; [congruence|exact E2].
Qed.

(** The number of entries is bounded, always. *)
Theorem C25_entries : forall o k, used o k -> Z.of_nat (length (held k)) <= entry_limit o.
Proof.
  intros o k H. apply used_inv in H as [C (G & [T _ _ _ _])]. destruct T as [_ _ _ _ T]. rewrite C in T. unfold held. rewrite map_length. unfold ring_len in T.
  etransitivity; [exact T|]. unfold entry_limit. destruct o as [mb [me|] [] [] ha im rc oe fe]; cbn -[Z.max]; lia.
Qed.
Print Assumptions C25_entries.

(** The octets of the values are bounded, unless values are reference counted. *)
Theorem C25_value_octets : forall o k, o_refcnt_vals o = false -> used o k -> value_octets k <= octet_limit o.
Proof.
  intros o k Hr H. apply used_inv in H as [C (G & [_ _ _ T4 T5])]. rewrite C in T4, T5.
  assert (E : c_refcnt (config o) = false) by (destruct o as [mb [me|] [] [] ha im rc oe fe]; exact Hr). rewrite E in T4.
  assert (Em : octet_limit o = Z.max 0 (c_max_byte_size (config o))) by (destruct o as [[mb|] [me|] [] [] ha im rc oe fe]; reflexivity). rewrite Em.
  enough (Ev : value_octets k = l_bytes (s_lru (k_store k))) by (now rewrite Ev). rewrite T4. unfold value_octets, held, ringkv. clear.
  induction (l_ring (s_lru (k_store k))) as [|e r IH]; [reflexivity|]. unfold sum, vsum in *. cbn [map fold_right fst snd] in *. rewrite IH. reflexivity.
Qed.
Print Assumptions C25_value_octets.

(** Keys are not counted: eight octets are allowed, one message leaves
    thirty-nine in the table, one entry with a value of one octet.  With
    reference counted values nothing is counted. *)
Definition eight (rc : bool) : options := mk_options (Some 8) None false false true true rc false true.
Definition one_message (k v : string) : hdict := [(lit k, lit v)].
Theorem C25_octets_refuted : exists o k, used o k /\ o_refcnt_vals o = false /\ octets k > octet_limit o.
Proof.
  assert (E : match code_new (eight false) with
              | Ok k => match make_operations backwards k (one_message "x-a-name-that-is-longer-than-the-table" "1") 1 with
                        | Ok (k', _) => octets k' = 39
                        | Err _ => False end
              | Err _ => False end) by (vm_compute; reflexivity).
  exists (eight false). destruct (code_new (eight false)) as [k|] eqn:E1; [|contradiction].
  destruct (make_operations backwards k _ 1) as [[k' is]|] eqn:E2; [|contradiction]. exists k'. split; [|split; [reflexivity|]].
  - eapply used_send; [|exact E2]. now apply used_new.
  - rewrite E. vm_compute. reflexivity.
Qed.
Print Assumptions C25_octets_refuted.

Theorem C25_refcnt_vals_refuted : exists o k, used o k /\ value_octets k > octet_limit o.
Proof.
  assert (E : match code_new (eight true) with
              | Ok k => match make_operations backwards k (one_message "a" "0123456789") 1 with
                        | Ok (k', _) => value_octets k' = 10
                        | Err _ => False end
              | Err _ => False end) by (vm_compute; reflexivity).
  exists (eight true). destruct (code_new (eight true)) as [k|] eqn:E1; [|contradiction].
  destruct (make_operations backwards k _ 1) as [[k' is]|] eqn:E2; [|contradiction]. exists k'. split.
  - eapply used_send; [|exact E2]. now apply used_new.
  - rewrite E. vm_compute. reflexivity.
Qed.
Print Assumptions C25_refcnt_vals_refuted.

(** The table is full: of four new headers with values of three octets two
    stay. *)
Example C25_nontrivial :
  match code_new (eight false) with
  | Ok k => match make_operations backwards k (map (fun n => (lit n, lit "abc")) ["x"; "y"; "z"; "w"]%string) 1 with
            | Ok (k', _) => held k' = [(lit "y", lit "abc"); (lit "x", lit "abc")] /\ value_octets k' = 6 /\ l_bytes (s_lru (k_store k')) = 6
            | Err _ => False end
  | Err _ => False end.
Proof. vm_compute. repeat split. Qed.
