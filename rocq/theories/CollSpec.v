(** * CollSpec: what the caches should do, said without the caches.

    A history is a list of operations, oldest first. The specifications below say, for one key
    at a time, what is remembered after a history. *)
From Verif Require Export Collection Spec.

(** ** Votes and certificates *)
(** What the state module does with the vote collector: store a vote (under its own hash and
    voter, as at process.rs:685 and 887), store a certificate, take a whole height out, drop
    old heights. *)
Inductive vop := VVote (v : svote) | VQC (q : aggvote) | VTake (height : N) | VFlush (till : N).
Definition vop_run (c : votecol) (op : vop) : votecol :=
  match op with
  | VVote v => vc_insert_vote c (v_hash (sv_vote v)) v (sv_voter v)
  | VQC q => vc_set_qc c q
  | VTake h => (vc_take_height c h).1
  | VFlush t => vc_flush c t
  end.
Definition vops (ops : list vop) : votecol := foldl vop_run ∅ ops.

(** The vote that counts for validator [a] at height [h], round [r], type [t]: the first one
    received since the height was last dropped. *)
Definition vote_at (h r : N) (t : vtype) (a : bytes) (v : svote) : bool :=
  (v_height (sv_vote v) =? h) && (v_round (sv_vote v) =? r) &&
  bool_decide (v_type (sv_vote v) = t) && bool_decide (sv_voter v = a).
Definition first_vote_step (h r : N) (t : vtype) (a : bytes) (cur : option svote) (op : vop)
    : option svote :=
  match op with
  | VVote v => match cur with
               | Some _ => cur
               | None => if vote_at h r t a v then Some v else None
               end
  | VQC _ => cur
  | VTake h' => if h =? h' then None else cur
  | VFlush till => if h <? till then None else cur
  end.
Definition first_vote (ops : list vop) (h r : N) (t : vtype) (a : bytes) : option svote :=
  foldl (first_vote_step h r t a) None ops.

(** The last certificate satisfying [sel] received since height [h] was last dropped. *)
Definition last_qc_step (h : N) (sel : aggvote -> bool) (cur : option aggvote) (op : vop)
    : option aggvote :=
  match op with
  | VVote _ => cur
  | VQC q => if (av_height q =? h) && sel q then Some q else cur
  | VTake h' => if h =? h' then None else cur
  | VFlush till => if h <? till then None else cur
  end.
Definition last_qc (ops : list vop) (h : N) (sel : aggvote -> bool) : option aggvote :=
  foldl (last_qc_step h sel) None ops.

(** ** Proposals *)
Section P.
Context {T : Type} `{EqDecision T}.
Inductive pop := PInsert (height round : N) (p : sproposal T) | PTake (height : N) | PFlush (till : N).
Definition pop_run (c : propcol T) (op : pop) : propcol T :=
  match op with
  | PInsert h r p => (pc_insert c h r p).1
  | PTake h => (pc_take_height c h).1
  | PFlush t => pc_flush c t
  end.
Definition pops (ops : list pop) : propcol T := foldl pop_run ∅ ops.
Definition first_prop_step (h r : N) (cur : option (sproposal T)) (op : pop) : option (sproposal T) :=
  match op with
  | PInsert h' r' p => match cur with
      | Some _ => cur
      | None => if (h =? h') && (r =? r') then Some p else None
      end
  | PTake h' => if h =? h' then None else cur
  | PFlush till => if h <? till then None else cur
  end.
Definition first_prop (ops : list pop) (h r : N) : option (sproposal T) :=
  foldl (first_prop_step h r) None ops.
End P.
Arguments pop : clear implicits.

(** ** Chokes *)
Inductive cop := CChoke (round : N) (sc : schoke) | CQc (round : N) (q : aggchoke) | CClear.
Definition cop_run (c : chokecol) (op : cop) : chokecol :=
  match op with
  | CChoke r sc => cc_insert c r sc
  | CQc r q => cc_set_qc c r q
  | CClear => chokecol_new
  end.
Definition cops (ops : list cop) : chokecol := foldl cop_run chokecol_new ops.
(** The addresses that choked round [r] since the last clear, each once. *)
Definition chokers_step (r : N) (cur : list bytes) (op : cop) : list bytes :=
  match op with
  | CChoke r' sc =>
      if (r =? r') && negb (bool_decide (sc_addr sc ∈ cur)) then sc_addr sc :: cur else cur
  | CQc _ _ => cur
  | CClear => []
  end.
Definition chokers (ops : list cop) (r : N) : list bytes := foldl (chokers_step r) [] ops.
