(** * StateSteps: what each handler that talks to the outside does, in one formula. *)
From Verif Require Export StateRun.
Set Default Proof Using "Type".

(** Looking up certificates in a collector built by operations. *)
Lemma lookup_hash ops h x t q :
  vc_get_qc_by_hash (vops ops) h x t = Some q ->
  VQC q ∈ ops /\ av_height q = h /\ av_hash q = x /\ av_type q = t.
Proof.
  rewrite get_qc_hash_qch, vops_qc_hash. intros Hl. apply last_qc_sel in Hl as (Hh & Hs & Hin).
  apply andb_true_iff in Hs as [H1 H2]. apply bool_decide_eq_true in H1. apply bool_decide_eq_true in H2. done.
Qed.
Lemma lookup_id ops h r t q :
  vc_get_qc_by_id (vops ops) h r t = Ok q ->
  VQC q ∈ ops /\ av_height q = h /\ av_round q = r /\ av_type q = t.
Proof.
  rewrite get_qc_rnd, vops_qc_id. case_match eqn:El; [|done]. intros; simplify_eq.
  apply last_qc_sel in El as (Hh & Hs & Hin).
  apply andb_true_iff in Hs as [H1 H2]. apply N.eqb_eq in H1. apply bool_decide_eq_true in H2. done.
Qed.

Section SS.
Context {T : Type} `{EqDecision T}.
Context (lc : lcfg) (tenc : T -> bytes).

Lemma set_from_inv from (s s' : st T) o r :
  set_update_from from s = (s', o, r) ->
  o = [] /\ ((r = Ok tt /\ exists uf, s' = set_s_from uf s) \/ (r <> Ok tt /\ s' = s)).
Proof.
  unfold set_update_from, get, bind, lift, modify, ret, fail. intros Hs.
  repeat (case_match; simplify_eq; try (split; [done|]; by eauto)).
Qed.
Lemma is_proposer_inv (s s' : st T) o r :
  is_proposer lc s = (s', o, r) ->
  o = [] /\
  match get_proposer lc (s_auth s) (s_height s) (s_round s) with
  | Ok p => r = Ok (bool_decide (p = s_addr s)) /\ s' = set_s_leader (bool_decide (p = s_addr s)) (set_s_laddr p s)
  | _ => s' = s /\ (forall x, r <> Ok x)
  end.
Proof.
  unfold is_proposer, get, bind, lift, modify, ret. intros Hs.
  destruct (get_proposer _ _ _ _) as [p|x|]; simplify_eq; try done.
  destruct (decide (p = s_addr s)) as [->|Hn]; simplify_eq.
  - split; [done|]. by rewrite bool_decide_eq_true_2.
  - split; [done|]. by rewrite bool_decide_eq_false_2.
Qed.

(** The state in which a new round is worked on: round set, source of the round recorded. *)
Definition entered (nr : N) (uf : upfrom) (s : st T) : st T :=
  set_s_from uf (set_s_leader false (set_s_round nr s)).
Definition view_changes (nr : N) (from : fromwhere) (s : st T) : list (action T) :=
  if nr =? INIT_ROUND then []
  else [AViewChange (s_height s) (s_round s) (view_change_reason s (s_round s) from)].
(** The part of [handle_new_round] after the record was written (process.rs:486-568). *)
Definition propose_part (e : env T) (lr : option N) (lp : option bytes) : M T unit :=
  bind (is_proposer lc) (fun leader : bool =>
  if negb leader then
    get (fun s => match pc_get (s_props s) (s_height s) (s_round s) with
                  | Ok sp => handle_signed_proposal lc e sp
                  | _ => ret tt
                  end)
  else
    bind (modify (set_s_leader true)) (fun _ =>
    bind (make_proposal e lr lp) (fun bhp =>
    let '(block, hash, polc) := bhp in
    bind (modify (fun s => match s_blocks s !! hash with
                     | Some _ => s
                     | None => set_s_blocks (<[hash := block]> (s_blocks s)) s end)) (fun _ =>
    get (fun s =>
      bind (sign_proposal tenc e (mkProposal (s_height s) (s_round s) block hash polc (s_addr s))) (fun sp =>
      bind (broadcast (MProposal sp)) (fun _ =>
      bind (trigger_smr e (mk_trigger TProposal hash lr (s_round s) (s_height s))) (fun _ =>
      check_block hash block)))))))).
Lemma new_round_inv e nr lr lp from s s' o r :
  handle_new_round lc tenc e nr lr lp from s = (s', o, r) ->
  exists o1, o = view_changes nr from s ++ o1 /\
  ((o1 = [] /\ r <> Ok tt /\
     ((s' = set_s_leader false (set_s_round nr s) /\
         (~ (is_Some lr <-> is_Some lp) \/
          forall uf, set_update_from from (set_s_leader false (set_s_round nr s)) <> (entered nr uf s, [], Ok tt))) \/
      exists uf, s' = entered nr uf s /\ lock_to_save (entered nr uf s) lr = None)) \/
   exists uf l, (is_Some lr <-> is_Some lp) /\
     set_update_from from (set_s_leader false (set_s_round nr s)) = (entered nr uf s, [], Ok tt) /\
     lock_to_save (entered nr uf s) lr = Some l /\
     let w := mkWalInfo (s_height s) nr SPropose l uf in
     ((e_save e w = false /\ o1 = [ASave w false] /\ s' = entered nr uf s /\ r = Err (ESaveWal (s_height s) nr)) \/
      (e_save e w = true /\ exists o2, o1 = ASave w true :: o2 /\
         propose_part e lr lp (entered nr uf s) = (s', o2, r)))).
Proof.
  intros Hn. unfold handle_new_round in Hn.
  apply bind_inv in Hn as [(u & s1 & o1 & o2 & H1 & H2 & ->)|[(x & H1 & ->)|(H1 & ->)]].
  2-3: unfold get, emit, ret in H1; destruct (negb _); simplify_eq.
  assert (s1 = s /\ o1 = view_changes nr from s) as [-> ->].
  { unfold get, emit, ret in H1. unfold view_changes. destruct (nr =? INIT_ROUND); simpl in H1; simplify_eq; done. }
  clear H1. exists o2. split; [done|].
  apply bind_inv in H2 as [(u' & s1 & o1 & o3 & H1 & H2 & ->)|[(x & H1 & ->)|(H1 & ->)]];
    unfold modify in H1; simplify_eq. clear u.
  destruct (negb _) eqn:Eb.
  { unfold fail in H2. simplify_eq. left. split_and!; try done. left. split; [done|]. left. intros Hl.
    apply negb_true_iff, eqb_false_iff in Eb. apply Eb. by apply bool_decide_ext. }
  assert (is_Some lr <-> is_Some lp) as Hl.
  { apply negb_false_iff, eqb_prop in Eb. split; intros Hx.
    - apply (bool_decide_eq_true _). rewrite <-Eb. by apply bool_decide_eq_true_2.
    - apply (bool_decide_eq_true _). rewrite Eb. by apply bool_decide_eq_true_2. }
  clear Eb.
  set (s0 := set_s_leader false (set_s_round nr s)) in *.
  apply bind_inv in H2 as [(u & s1 & o1 & o4 & H1 & H2 & ->)|[(x & H1 & ->)|(H1 & ->)]].
  2-3: pose proof (set_from_inv _ _ _ _ _ H1) as [-> [[? _]|[? ->]]]; [done|]; left; (split_and!; [done|done|]);
    left; (split; [done|]); right; intros uf Hx; rewrite H1 in Hx; by simplify_eq.
  destruct u. pose proof (set_from_inv _ _ _ _ _ H1) as [-> [[_ [uf ->]]|[? _]]]; [|done].
  change (set_s_from uf s0) with (entered nr uf s) in *.
  apply bind_inv in H2 as [(u & s1 & o1 & o5 & H3 & H4 & ->)|[(x & H3 & ->)|(H3 & ->)]].
  - apply save_lr_inv in H3 as [-> H3]. destruct (lock_to_save _ _) as [l|] eqn:El; [|by destruct H3].
    right. exists uf, l. split_and!; try done. cbv zeta in H3. destruct H3 as [-> H3].
    change (mkWalInfo _ _ _ _ _) with (mkWalInfo (s_height s) nr SPropose l uf) in *.
    cbv zeta. destruct (e_save e _) eqn:Es; [|done]. right. split; [done|]. exists o5. split; [done|]. exact H4.
  - apply save_lr_inv in H3 as [-> H3]. destruct (lock_to_save _ _) as [l|] eqn:El.
    + right. exists uf, l. split_and!; try done. cbv zeta in H3. destruct H3 as [-> H3].
      change (mkWalInfo _ _ _ _ _) with (mkWalInfo (s_height s) nr SPropose l uf) in *.
      cbv zeta. destruct (e_save e _) eqn:Es; [done|]. left. by simplify_eq.
    + destruct H3 as [-> H3]. left. split_and!; [done|congruence|]. right. eauto.
  - apply save_lr_inv in H3 as [-> H3]. destruct (lock_to_save _ _) as [l|] eqn:El.
    + cbv zeta in H3. destruct H3 as [_ H3]. destruct (e_save _ _); done.
    + by destruct H3.
Qed.

Definition led (p : bytes) (s : st T) : st T := set_s_leader (bool_decide (p = s_addr s)) (set_s_laddr p s).
Definition with_block (h : bytes) (b : T) (s : st T) : st T :=
  match s_blocks s !! h with Some _ => s | None => set_s_blocks (<[h := b]> (s_blocks s)) s end.
Lemma propose_inv e lr lp s s' o r :
  propose_part e lr lp s = (s', o, r) ->
  match get_proposer lc (s_auth s) (s_height s) (s_round s) with
  | Ok p =>
      if decide (p = s_addr s) then
        (s' = led p s /\ (o = [] \/ o = [AGetBlock (s_height s)]) /\
           forall s1 o1 x, make_proposal e lr lp (led p s) <> (s1, o1, Ok x)) \/
        (exists b h pl om, make_proposal e lr lp (led p s) = (led p s, om, Ok (b, h, pl)) /\
          s' = with_block h b (led p s) /\
          (o = om /\ cr_sign (e_crypto e) (cr_hash (e_crypto e) (enc (proposal_rlp tenc
                         (mkProposal (s_height s) (s_round s) b h pl (s_addr s))))) = None \/
           exists sig tr,
             let prop := mkProposal (s_height s) (s_round s) b h pl (s_addr s) in
             cr_sign (e_crypto e) (cr_hash (e_crypto e) (enc (proposal_rlp tenc prop))) = Some sig /\
             o = om ++ ABroadcast (MProposal (mkSProposal sig prop)) :: tr /\
             (tr = [] \/
              tr = [ATrigger (mk_trigger TProposal h lr (s_round s) (s_height s));
                    ACheck (s_height s) (s_round s) h b])))
      else
        match pc_get (s_props s) (s_height s) (s_round s) with
        | Ok sp => handle_signed_proposal lc e sp (led p s) = (s', o, r)
        | _ => s' = led p s /\ o = [] /\ r = Ok tt
        end
  | _ => s' = s /\ o = []
  end.
Proof.
  intros Hp. unfold propose_part in Hp.
  destruct (is_proposer lc s) as [[s1 o1] r1] eqn:Ei.
  assert (is_proposer lc s = (s1, o1, r1)) as Ei2 by done. apply is_proposer_inv in Ei2 as [-> Ei2].
  destruct (get_proposer lc _ _ _) as [p|x|] eqn:Eg.
  2-3: destruct Ei2 as [-> Hr1]; unfold bind in Hp; rewrite Ei in Hp; destruct r1 as [y|y|]; [by destruct (Hr1 y)|by simplify_eq..].
  destruct Ei2 as [-> ->]. unfold bind at 1 in Hp. rewrite Ei in Hp. change (set_s_leader _ (set_s_laddr p s)) with (led p s) in Hp.
  cbn [app] in Hp. rewrite eta3 in Hp.
  destruct (decide (p = s_addr s)) as [Ep|Ep].
  - rewrite (bool_decide_eq_true_2 _ Ep) in Hp. cbn [negb] in Hp.
    apply bind_inv in Hp as [(u & s2 & o1 & o3 & H1 & H2 & ->)|[(x & H1 & ->)|(H1 & ->)]];
      unfold modify in H1; simplify_eq.
    assert (set_s_leader true (led (s_addr s) s) = led (s_addr s) s) as El.
    { unfold led. by rewrite bool_decide_eq_true_2. }
    rewrite El in H2. clear El.
    apply bind_inv in H2 as [([[b h] pl] & s2 & om & o4 & H1 & H2 & ->)|[(x & H1 & ->)|(H1 & ->)]].
    2-3: left; pose proof (make_inv _ _ _ _ _ _ _ H1) as [-> Hm]; split; [done|]; (split; [|intros ? ? ? Hx; congruence]);
         destruct lr; [destruct Hm as [-> _]; by left|destruct Hm as [-> _]; by right].
    right. pose proof (make_inv _ _ _ _ _ _ _ H1) as [-> _]. exists b, h, pl, om. split; [done|].
    apply bind_inv in H2 as [(u' & s2 & o1 & o3 & H3 & H2 & ->)|[(x & H3 & ->)|(H3 & ->)]];
      unfold modify in H3; simplify_eq.
    change (match s_blocks (led _ _) !! h with | Some _ => _ | None => _ end) with (with_block h b (led (s_addr s) s)) in H2.
    assert (s_height (with_block h b (led (s_addr s) s)) = s_height s /\
            s_round (with_block h b (led (s_addr s) s)) = s_round s /\
            s_addr (with_block h b (led (s_addr s) s)) = s_addr s) as (G1 & G2 & G3).
    { unfold with_block. destruct (_ !! h); done. }
    unfold get in H2. rewrite G1, G2, G3 in H2.
    apply bind_inv in H2 as [(sp & s2 & o1 & o4 & H3 & H2 & ->)|[(x & H3 & ->)|(H3 & ->)]].
    2-3: apply sign_proposal_inv in H3 as (-> & -> & H3); split; [done|]; left; rewrite app_nil_r;
         (split; [done|]); destruct (cr_sign _ _); done.
    apply sign_proposal_inv in H3 as (-> & -> & H3). case_match eqn:Esig; simplify_eq.
    apply bind_inv in H2 as [(? & s2 & o1 & o5 & H3 & H2 & ->)|[(x & H3 & ->)|(H3 & ->)]];
      unfold broadcast, emit in H3; simplify_eq.
    apply bind_inv in H2 as [(? & s2 & o1 & o6 & H3 & H2 & ->)|[(x & H3 & ->)|(H3 & ->)]].
    3: apply trigger_inv in H3 as [-> [[-> ?]|[-> ?]]]; done.
    2: apply trigger_inv in H3 as [-> [[-> ?]|[-> ?]]]; [done|]; split; [done|]; right;
         eexists _, []; cbv zeta; split; [done|]; split; [done|by left].
    apply trigger_inv in H3 as [-> [[-> _]|[_ ?]]]; [|done].
    unfold check_block, get, emit in H2. simplify_eq. split; [done|]. right.
    eexists _, [_; _]; cbv zeta; split; [done|]; split; [|right; reflexivity]. by rewrite G1, G2.
  - rewrite (bool_decide_eq_false_2 _ Ep) in Hp. cbn [negb] in Hp. unfold get in Hp.
    change (s_props (led p s)) with (s_props s) in Hp. change (s_height (led p s)) with (s_height s) in Hp.
    change (s_round (led p s)) with (s_round s) in Hp.
    destruct (pc_get _ _ _); unfold ret in Hp; simplify_eq; done.
Qed.

(** [handle_commit] *)
Definition commit_record (s : st T) (qc : aggvote) (content : T) : walinfo T :=
  mkWalInfo (s_height s) (s_round s) SCommit (Some (mkWalLock (s_round s) qc content)) (s_from s).
Definition commit_value (s : st T) (hash : bytes) (qc : aggvote) (content : T) : commit T :=
  mkCommit (s_height s) content (mkProof (s_height s) (av_round qc) hash (av_sig qc)).
Lemma commit_inv e hash s s' o r :
  handle_commit lc e hash s = (s', o, r) ->
  (s' = s /\ o = [] /\ r <> Ok tt /\
     (s_blocks s !! hash = None \/ vc_get_qc_by_hash (s_votes s) (s_height s) hash Precommit = None)) \/
  exists content qc, s_blocks s !! hash = Some content /\
    vc_get_qc_by_hash (s_votes s) (s_height s) hash Precommit = Some qc /\
    let w := commit_record s qc content in let c := commit_value s hash qc content in
    (e_save e w = false /\ s' = s /\ o = [ASave w false]) \/
    (e_save e w = true /\
     match e_commit e (s_height s) c with
     | None => s' = s /\ o = [ASave w true; ACommit (s_height s) c] /\ r = Err EOther
     | Some stt =>
         let s1 := set_s_auth (auth_update (st_auth stt)) s in
         exists o2, o = ASave w true :: ACommit (s_height s) c :: o2 /\
         match get_proposer lc (auth_update (st_auth stt)) (st_height stt) INIT_ROUND with
         | Ok _ => goto_new_height e stt s1 = (s', o2, r)
         | Err x => s' = s1 /\ o2 = [] /\ r = Err x
         | Panic => s' = s1 /\ o2 = [] /\ r = Panic
         end
     end).
Proof.
  intros Hc. unfold handle_commit, get in Hc.
  destruct (s_blocks s !! hash) as [content|] eqn:Eb; [|unfold fail in Hc; simplify_eq; by left; auto].
  destruct (vc_get_qc_by_hash _ _ _ _) as [qc|] eqn:Eq; [|unfold fail in Hc; simplify_eq; by left; auto].
  right. exists content, qc. split_and!; try done. cbv zeta.
  apply bind_inv in Hc as [(? & ? & ? & o2 & H1 & H2 & ->)|[(? & H1 & ->)|(H1 & ->)]];
    apply save_wal_inv in H1 as (Es & -> & H1); (match type of Es with ?x = s => subst x end);
    change (mkWalInfo _ _ _ _ _) with (commit_record s qc content) in *;
    destruct (e_save e _); try done; auto.
  right. split; [done|].
  apply bind_inv in H2 as [(? & ? & ? & o3 & H2 & H3 & ->)|[(? & H2 & ->)|(H2 & ->)]];
    unfold emit in H2; [injection H2 as <- <- <-|done..].
  change (mkCommit _ _ _) with (commit_value s hash qc content) in *.
  destruct (e_commit e _ _) as [stt|]; [|unfold fail in H3; by simplify_eq].
  apply bind_inv in H3 as [(? & ? & ? & o4 & H2 & H3 & ->)|[(? & H2 & ->)|(H2 & ->)]];
    unfold modify in H2; [injection H2 as <- <- <-|done..]. exists o4. split; [done|].
  unfold bind, lift in H3. cbn [s_auth set_s_auth] in H3.
  destruct (get_proposer _ _ _ _); [|by simplify_eq..]. by rewrite eta3 in H3.
Qed.
End SS.
