(** * NodeEx: concrete schedules of a whole instance. *)
From Verif Require Export Node StateEx.
Set Default Proof Using "Type".

Definition ndexec (me : bytes) (ls : list (label bytes)) : option (node bytes * list (nlog bytes)) :=
  run_labels nlc ntenc (ncr me) ls (nstart nlc ntdec true (nboot me None) None).
Definition ndlog (me : bytes) ls : list (nlog bytes) := match ndexec me ls with Some (_, l) => l | None => [] end.
Definition ndnode (me : bytes) ls : node bytes :=
  match ndexec me ls with Some (n, _) => n | None => (nstart nlc ntdec true (nboot me None) None).1 end.
Definition ndok (me : bytes) ls : bool := match ndexec me ls with Some _ => true | None => false end.
Definition ndrun (me : bytes) := noderun nlc ntenc ntdec true (ncr me) (nboot me None) None.
Lemma ndok_run me ls : ndok me ls = true -> ndrun me (ndlog me ls) (ndnode me ls).
Proof.
  unfold ndok, ndlog, ndnode. destruct (ndexec me ls) as [[n l]|] eqn:E; [|done]. intros _. by eapply run_labels_run.
Qed.

(** A message goes through the instance: sent, taken, verified, treated. *)
Definition through (me : bytes) (m : omsg bytes) : list (label bytes) :=
  let e := nenv me true in [LSend m; LRaw e; LVerify 0; LMsg e].
(** A rich status is not verified. *)
Definition status_through (me : bytes) (stt : status) : list (label bytes) :=
  let e := nenv me true in [LSend (MStatus stt); LRaw e; LMsg e].
(** A follows B's proposal through height 1; all its timeouts expire in between. *)
Definition follower_schedule : list (label bytes) :=
  let e := nenv nA true in
  status_through nA (nstatus 1) ++ [LSmr; LEvent e; LArm] ++
  through nA (MProposal (nprop nB 1 0 blk None)) ++ [LSmr; LArm; LEvent e; LExpire 0; LFire; LSmr; LCheck 0 true; LResp e] ++
  through nA (MAgg pvqc) ++ [LSmr; LEvent e; LArm] ++
  through nA (MAgg pcqc) ++ [LSmr; LArm; LEvent e; LExpire 0; LFire; LSmr; LSmr; LEvent e; LArm].
Definition committed (log : list (nlog bytes)) : list (N * commit bytes) :=
  omap (fun a => match a with ACommit h c => Some (h, c) | _ => None end) (actions log).
Definition own_votes (log : list (nlog bytes)) : list svote :=
  omap (fun a => match a with AOwnVote v => Some v | _ => None end) (actions log).
Definition sent_to (log : list (nlog bytes)) : list (bytes * omsg bytes) :=
  omap (fun a => match a with ATransmit x m => Some (x, m) | _ => None end) (actions log).
Example follower_schedule_runs : ndrun nA (ndlog nA follower_schedule) (ndnode nA follower_schedule).
Proof. apply ndok_run. vm_compute. reflexivity. Qed.
(** It prevoted and precommitted B's block, committed it, and is at height 2, state machine included. *)
Example follower_schedule_outcome :
  (fun x => (x.1, c_content x.2)) <$> committed (ndlog nA follower_schedule) = [(1, blk)] /\
  omap (fun x => match x with (to, MVote v) => Some (to, sv_vote v) | _ => None end) (sent_to (ndlog nA follower_schedule)) =
    [(nB, mkVote 1 0 Prevote hsh); (nB, mkVote 1 0 Precommit hsh)] /\
  (let n := ndnode nA follower_schedule in
   (s_height (nd_st n), m_height (nd_smr n), m_step (nd_smr n), nd_on n) = (2, 2, SPropose, true)).
Proof. vm_compute. auto. Qed.
