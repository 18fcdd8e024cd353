(** * Python fragments used throughout the models.

    Strings are lists of code units ([N]); a Python-2 byte string is one whose
    units are all below 256.  Exceptions are values of type [res]. *)
From Coq Require Import List NArith ZArith Bool Lia String Ascii Arith.
Import ListNotations.

Definition str := list N.

(** String literals: [lit "abc"]. *)
Definition lit (s : string) : str := map N_of_ascii (list_ascii_of_string s).

(** Exceptions that the modelled code can raise.  [Diverge] is not a Python
    exception: it is the result of a fuel-bounded loop that ran out of fuel. *)
Inductive exn :=
| IndexError | KeyError | StructError | ValueError | NameError | TypeError
| StandardError | ZeroDivisionError | AttributeError | UnicodeError
| ImportError | OverflowError | SystemExit | AssertionError | MemoryError | GenericException | Diverge.

Inductive res (A : Type) := Ok (a : A) | Err (e : exn).
Arguments Ok {A} a.
Arguments Err {A} e.

Definition bind {A B} (r : res A) (f : A -> res B) : res B :=
  match r with Ok a => f a | Err e => Err e end.

Declare Scope py_scope.
Notation "'let*' p ':=' e 'in' f" := (bind e (fun x => match x with p => f end))
  (at level 200, p pattern, e at level 200, f at level 200, right associativity) : py_scope.
Open Scope py_scope.

(** Equality tests. *)
Fixpoint str_eqb (a b : str) : bool :=
  match a, b with
  | [], [] => true
  | x :: a', y :: b' => N.eqb x y && str_eqb a' b'
  | _, _ => false
  end.

Lemma str_eqb_spec a b : reflect (a = b) (str_eqb a b).
Proof.
  revert b; induction a as [|x a IH]; intros [|y b]; simpl; try (constructor; congruence).
  destruct (N.eqb_spec x y) as [->|H]; simpl.
  - destruct (IH b) as [->|H]; constructor; congruence.
  - constructor; congruence.
Qed.

Lemma str_eqb_refl a : str_eqb a a = true.
Proof. destruct (str_eqb_spec a a); congruence. Qed.

Definition str_eq_dec (a b : str) : {a = b} + {a <> b}.
Proof. apply (list_eq_dec N.eq_dec). Defined.

(** Length as [N]. *)
Definition lenN {A} (l : list A) : N := N.of_nat (List.length l).

(** [l[i]] for a non-negative [i], guarded so that a huge index does not
    build a huge [nat]. *)
Definition nthN {A} (l : list A) (i : N) : option A :=
  if N.ltb i (lenN l) then nth_error l (N.to_nat i) else None.

(** Slices [l[:n]] and [l[n:]] (Python slices never raise). *)
Definition takeN {A} (n : N) (l : list A) : list A :=
  firstn (N.to_nat (N.min n (lenN l))) l.
Definition dropN {A} (n : N) (l : list A) : list A :=
  skipn (N.to_nat (N.min n (lenN l))) l.

Lemma nthN_nth {A} (l : list A) i : nthN l i = nth_error l (N.to_nat i).
Proof.
  unfold nthN, lenN. destruct (N.ltb_spec i (N.of_nat (List.length l))); auto.
  symmetry. apply nth_error_None. lia.
Qed.

Lemma takeN_firstn {A} n (l : list A) : takeN n l = firstn (N.to_nat n) l.
Proof.
  unfold takeN, lenN. destruct (N.min_spec n (N.of_nat (List.length l))) as [[H ->]|[H ->]]; auto.
  rewrite !firstn_all2; auto; lia.
Qed.

Lemma dropN_skipn {A} n (l : list A) : dropN n l = skipn (N.to_nat n) l.
Proof.
  unfold dropN, lenN. destruct (N.min_spec n (N.of_nat (List.length l))) as [[H ->]|[H ->]]; auto.
  rewrite !skipn_all2; auto; lia.
Qed.

Lemma takeN_app {A} (l r : list A) : takeN (lenN l) (l ++ r) = l.
Proof.
  rewrite takeN_firstn. unfold lenN. rewrite Nat2N.id, firstn_app, Nat.sub_diag, firstn_all.
  now rewrite firstn_O, app_nil_r.
Qed.

Lemma dropN_app {A} (l r : list A) : dropN (lenN l) (l ++ r) = r.
Proof.
  rewrite dropN_skipn. unfold lenN. now rewrite Nat2N.id, skipn_app, Nat.sub_diag, skipn_all.
Qed.

(** [l[i] = f(l[i])] *)
Fixpoint update_nth {A} (i : nat) (f : A -> A) (l : list A) : list A :=
  match l, i with
  | [], _ => []
  | x :: t, O => f x :: t
  | x :: t, S j => x :: update_nth j f t
  end.

(** [struct.pack("!B", n)] and [struct.pack("!H", n)]: raise when out of range. *)
Definition pack_B (n : N) : res str := if N.ltb n 256 then Ok [n] else Err StructError.
Definition pack_H (n : N) : res str :=
  if N.ltb n 65536 then Ok [N.shiftr n 8; N.land n 255] else Err StructError.

Definition is_bytes (s : str) : Prop := Forall (fun c => (c < 256)%N) s.

(** Inversion of monadic binds. *)
Lemma bind_ok {A B} (r : res A) (f : A -> res B) b :
  bind r f = Ok b -> exists a, r = Ok a /\ f a = Ok b.
Proof. destruct r; simpl; intros H; [eauto | discriminate]. Qed.

Ltac inv_ok :=
  repeat match goal with
  | H : bind _ _ = Ok _ |- _ => apply bind_ok in H; destruct H as (? & ? & H)
  | H : Ok _ = Ok _ |- _ => injection H as H; subst
  | H : Err _ = Ok _ |- _ => discriminate H
  | H : Ok _ = Err _ |- _ => discriminate H
  | x : (_ * _)%type |- _ => destruct x
  end.
