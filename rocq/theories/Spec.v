(** * Spec: the small vocabulary used by theorem statements, independent of the model's helpers. *)
From Verif Require Export Types.

(** Sum of [f] over a list. *)
Definition sumN {A} (f : A -> N) (l : list A) : N := foldr (fun x s => f x + s) 0 l.
(** Total vote weight of a validator list. *)
Definition total_weight (l : list vnode) : N := sumN n_vw l.
(** Vote weight of the validators of [l] whose address satisfies [P]. *)
Definition weight_where (P : bytes -> bool) (l : list vnode) : N :=
  sumN (fun n => if P (n_addr n) then n_vw n else 0) l.
(** Vote weight of the validators of [l] whose address is in [who]. *)
Definition weight_of (who : list bytes) (l : list vnode) : N :=
  weight_where (fun a => bool_decide (a ∈ who)) l.
(** A validator list as a chain supplies it: distinct addresses. *)
Definition distinct (l : list vnode) : Prop := NoDup (n_addr <$> l).
(** Strictly ascending byte-lexicographic order. *)
Definition blt (a b : bytes) : Prop := bcmp a b = Lt.
Definition ascending (l : list bytes) : Prop := StronglySorted blt l.
