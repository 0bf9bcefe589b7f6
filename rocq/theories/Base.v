(** * Base: bytes, machine integers, results.

    Byte strings ([bytes::Bytes], [Vec<u8>], [&[u8]]) are [list byte]; unsigned machine
    integers are [N] with the wrap-around of the release build written explicitly. *)
From Coq.Init Require Export Byte.
From Coq.Strings Require Export Byte.
From Coq Require Export NArith Lia ZifyN ZifyBool ZifyNat.
From stdpp Require Export prelude gmap sorting numbers.
From stdpp Require Export list.

Global Open Scope N_scope.
Global Arguments N.add : simpl never.
Global Arguments N.mul : simpl never.
Global Arguments N.sub : simpl never.
Global Arguments N.div : simpl never.
Global Arguments N.modulo : simpl never.
Global Arguments N.pow : simpl never.

(** ** Bytes *)
Definition bytes := list byte.

Global Instance byte_eq_dec : EqDecision byte := Byte.byte_eq_dec.

Definition b2n (b : byte) : N := Byte.to_N b.

(** [n2b n] is the byte of value [n mod 256] (Rust's [n as u8]). *)
Definition n2b (n : N) : byte :=
  match Byte.of_N (n mod 256) with Some b => b | None => x00 end.

Lemma b2n_lt (b : byte) : b2n b < 256.
Proof. unfold b2n. pose proof (Byte.to_N_bounded b). lia. Qed.

Lemma n2b_b2n (b : byte) : n2b (b2n b) = b.
Proof.
  unfold n2b. rewrite N.mod_small by apply b2n_lt. unfold b2n.
  rewrite Byte.of_to_N. done.
Qed.

Lemma b2n_n2b (n : N) : n < 256 -> b2n (n2b n) = n.
Proof.
  intros Hn. unfold n2b. rewrite N.mod_small by done.
  destruct (Byte.of_N n) as [b|] eqn:E.
  - apply Byte.to_of_N in E. exact E.
  - apply Byte.of_N_None_iff in E. lia.
Qed.

Lemma b2n_inj (a b : byte) : b2n a = b2n b -> a = b.
Proof. intros H. rewrite <-(n2b_b2n a), <-(n2b_b2n b), H. done. Qed.

Global Program Instance byte_countable : Countable byte :=
  inj_countable Byte.to_N Byte.of_N _.
Next Obligation. intros x. apply Byte.of_to_N. Qed.

(** ** Lexicographic order on byte strings (Rust's [Ord for Bytes]) *)
Fixpoint bcmp (a b : bytes) : comparison :=
  match a, b with
  | [], [] => Eq
  | [], _ :: _ => Lt
  | _ :: _, [] => Gt
  | x :: a', y :: b' =>
      match N.compare (b2n x) (b2n y) with
      | Eq => bcmp a' b'
      | c => c
      end
  end.

Definition ble (a b : bytes) : Prop := bcmp a b <> Gt.
Global Instance comparison_eq_dec : EqDecision comparison.
Proof. solve_decision. Defined.
Global Instance ble_dec a b : Decision (ble a b).
Proof. unfold ble. apply _. Defined.

Lemma bcmp_refl a : bcmp a a = Eq.
Proof. induction a as [|x a IH]; simpl; [done|]. rewrite N.compare_refl. done. Qed.

Lemma bcmp_eq a b : bcmp a b = Eq -> a = b.
Proof.
  revert b; induction a as [|x a IH]; intros [|y b]; simpl; try done.
  destruct (N.compare_spec (b2n x) (b2n y)) as [E|E|E]; try done.
  intros H. apply b2n_inj in E. subst. f_equal. auto.
Qed.

Lemma bcmp_antisym a b : bcmp b a = CompOpp (bcmp a b).
Proof.
  revert b; induction a as [|x a IH]; intros [|y b]; simpl; try done.
  rewrite N.compare_antisym. destruct (N.compare (b2n x) (b2n y)); simpl; auto.
Qed.

Lemma bcmp_lt_trans a b c : bcmp a b = Lt -> bcmp b c = Lt -> bcmp a c = Lt.
Proof.
  revert b c; induction a as [|x a IH]; intros [|y b] [|z c]; simpl; try done.
  destruct (N.compare_spec (b2n x) (b2n y)) as [E1|E1|E1];
  destruct (N.compare_spec (b2n y) (b2n z)) as [E2|E2|E2];
  destruct (N.compare_spec (b2n x) (b2n z)) as [E3|E3|E3]; try done; try lia.
  eauto.
Qed.

Lemma ble_trans a b c : ble a b -> ble b c -> ble a c.
Proof.
  unfold ble. intros H1 H2 H3.
  assert (bcmp c a = Lt) as H3' by (rewrite bcmp_antisym, H3; done).
  destruct (bcmp a b) eqn:E1; [| |done].
  - apply bcmp_eq in E1. subst. rewrite H3 in H2. done.
  - pose proof (bcmp_lt_trans _ _ _ H3' E1) as H4.
    rewrite bcmp_antisym, H4 in H2. done.
Qed.

Lemma ble_total a b : ble a b \/ ble b a.
Proof.
  unfold ble. rewrite (bcmp_antisym a b). destruct (bcmp a b); simpl; auto.
Qed.

Lemma ble_antisym a b : ble a b -> ble b a -> a = b.
Proof.
  unfold ble. rewrite (bcmp_antisym a b). destruct (bcmp a b) eqn:E; simpl; try done.
  intros _ _. apply bcmp_eq. done.
Qed.

(** ** Machine integers *)
Definition U64 : N := 2 ^ 64.
Definition U32 : N := 2 ^ 32.
Definition u64_max : N := U64 - 1.
(** wrap-around of the release build *)
Definition w64 (n : N) : N := n mod U64.
Definition w32 (n : N) : N := n mod U32.

Lemma w64_small n : n < U64 -> w64 n = n.
Proof. apply N.mod_small. Qed.
Lemma w32_small n : n < U32 -> w32 n = n.
Proof. apply N.mod_small. Qed.
Lemma w64_lt n : w64 n < U64.
Proof. apply N.mod_lt. done. Qed.

(** ** Results: [Result<A, ConsensusError>] plus an explicit panic. *)
Inductive cerr :=
| EInvalidAddress | EChannel | ETriggerSMR | EMonitorEvent | EThrowEvent
| EProposal | EPrevote | EPrecommit | EBrake | ESelfCheck | ECorrectness | ETimer
| EStateErr | EMultiProposal (height round : N) | EStorage
| ESaveWal (height round : N) | ELoadWal | ECrypto | EAggSig | EOther
| EDecode.

Global Instance cerr_eq_dec : EqDecision cerr.
Proof. solve_decision. Defined.

Inductive res (A : Type) :=
| Ok (a : A)
| Err (e : cerr)
| Panic.
Arguments Ok {A} a.
Arguments Err {A} e.
Arguments Panic {A}.

Definition rbind {A B} (x : res A) (f : A -> res B) : res B :=
  match x with Ok a => f a | Err e => Err e | Panic => Panic end.

Notation "'let?' x ':=' e 'in' k" := (rbind e (fun x => k))
  (at level 200, x pattern, e at level 100, k at level 200, right associativity).

Definition is_ok {A} (x : res A) : bool := match x with Ok _ => true | _ => false end.
