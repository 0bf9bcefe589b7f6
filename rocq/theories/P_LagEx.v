(** * P_LagEx: executions that meet the hypotheses of P_Lag (C64). *)
From Verif Require Export P_Lag P_Deadlock.
Set Default Proof Using "Type".

(** A, stalled in round 0 of height 1, gets a choke of a later round, for each of the three reasons. *)
Definition lag_qc0 : aggchoke :=
  mkAggChoke 1 0 (sc_sig (nchoke nB 1 0 (UFPrecommit mock_init_qc)) ++ sc_sig (nchoke nC 1 0 (UFPrecommit mock_init_qc)) ++ sc_sig (nchoke nD 1 0 (UFPrecommit mock_init_qc))) [nB; nC; nD].
Definition lag_chokes : list (schoke * N) :=
  [(nchoke nB 1 1 (UFChoke lag_qc0), 1);
   (nchoke nB 1 2 (UFPrecommit (nqc xe0 [nA; nB; nC] nC 1 1 Precommit [])), 2);
   (nchoke nB 1 4 (UFPrevote (nqc xe0 [nA; nB; nC] nA 1 3 Prevote [])), 3)].
(** It follows, and is stalled in the round it gets to: there it chokes again and again. *)
Definition lag_story (from : upfrom) (sc : schoke) : list olab :=
  let e := nenv nA true in
  Some <$> (waits nA ++ [LEvent e; LArm] ++ through nA (MChoke sc) ++ [LSmr; LEvent e; LArm] ++
    (match from with
     | UFPrevote _ => [LEvent e; LArm] ++ expire3 ++ [LEvent e]
     | _ => [LExpire 0; LFire; LSmr; LExpire 0; LFire; LSmr; LEvent e; LArm; LExpire 0; LFire; LSmr; LEvent e; LArm; LExpire 0; LFire; LSmr; LArm; LEvent e]
     end)).
Definition lag_turn : list olab := Some <$> [LExpire 0; LFire; LSmr; LArm; LEvent (nenv nA true)].
Definition belongsb (s : st bytes) (from : upfrom) (k : N) : bool :=
  match from with
  | UFChoke qc => (2 * auth_len (s_auth s) <? 3 * length (ac_voters qc))%nat && (k =? ac_round qc + 1)
  | UFPrecommit qc => bool_decide (av_type qc = Precommit) && (av_height qc =? s_height s) && bool_decide (av_hash qc = []) && (s_round s <=? av_round qc) && (k =? av_round qc + 1)
  | UFPrevote qc => bool_decide (av_type qc = Prevote) && (av_height qc =? s_height s) && bool_decide (av_hash qc = []) && (s_round s <? av_round qc) && (k =? av_round qc)
  end.
Lemma belongsb_ok s from k : belongsb s from k = true -> belongs s from k.
Proof.
  unfold belongsb, belongs. destruct from as [q|q|q]; rewrite ?andb_true_iff, ?bool_decide_eq_true, ?N.eqb_eq, ?N.ltb_lt, ?N.leb_le, ?Nat.ltb_lt.
  - intros ((((H1 & H2) & H3) & H4) & H5). auto 6.
  - intros ((((H1 & H2) & H3) & H4) & H5). auto 6.
  - intros (H1 & H2). split; [lia|done].
Qed.
Definition lagging (sc : schoke) (k : N) (x : lentry) : bool :=
  match snd x with
  | [NState _ (IMsg (MChoke sc')) s _ _] => bool_decide (sc' = sc) && s_power s && (0 <? s_height s) && (ck_height (sc_choke sc) =? s_height s) &&
      (s_round s <? ck_round (sc_choke sc)) && belongsb s (ck_from (sc_choke sc)) k && (m_height (nd_smr (fst x)) =? s_height s) && (m_round (nd_smr (fst x)) <? k)
  | _ => false end.
Lemma lagging_ok sc k n g : lagging sc k (n, g) = true -> exists e s o r,
  g = [NState e (IMsg (MChoke sc)) s o r] /\ s_power s = true /\ 0 < s_height s /\
  ck_height (sc_choke sc) = s_height s /\ s_round s < ck_round (sc_choke sc) /\
  belongs s (ck_from (sc_choke sc)) k /\ m_height (nd_smr n) = s_height s /\ m_round (nd_smr n) < k.
Proof.
  unfold lagging. cbn [fst snd]. destruct g as [|g0 [|? ?]]; [discriminate| |destruct g0; try discriminate; destruct i; try discriminate; destruct m; discriminate].
  destruct g0; try discriminate. destruct i; try discriminate. destruct m; try discriminate. rewrite !andb_true_iff. intros (((((((L1 & L2) & L3) & L4) & L5) & L6) & L7) & L8).
  apply bool_decide_eq_true in L1 as ->. apply N.ltb_lt in L3, L5, L8. apply N.eqb_eq in L4, L7. apply belongsb_ok in L6.
  exists e, s, o, r. auto 9.
Qed.
Definition lag_fits (sc : schoke) (k rd : N) : bool :=
  match trace (ncr nA) (lag_story (ck_from (sc_choke sc)) sc) (ndnode nA []) with
  | Some (tp, n) => match trace (ncr nA) lag_turn n with
                    | Some (tc, n') => bool_decide (n' = n) && checks 1 rd lag_turn tp tc n && existsb (lagging sc k) tp
                    | None => false end
  | None => false end.
Definition lag_list : list (schoke * N * N) := zip lag_chokes [1; 2; 4].
Lemma lag_fits_all : forallb (fun t => lag_fits (fst (fst t)) (snd (fst t)) (snd t) && (snd (fst t) + 1 <? 2 ^ 64)) lag_list = true.
Proof. vm_compute. reflexivity. Qed.
Lemma lag_uses from sc : Forall (lab_uses (ncr nA)) (lag_story from sc ++ lag_turn).
Proof.
  assert (forall l, Forall (uses (ncr nA)) l -> Forall (lab_uses (ncr nA)) (Some <$> l)) as Hf by (intros l H; by apply Forall_fmap).
  apply Forall_app. split; apply Hf; [|plain_uses]. unfold waits, expire3. cbv zeta. repeat (apply Forall_app; split); try apply through_uses; try plain_uses.
  all: unfold status_through; try plain_uses. destruct from; repeat (apply Forall_app; split); plain_uses.
Qed.
Lemma lag_generic sc k rd : lag_fits sc k rd = true -> k + 1 < 2 ^ 64 -> exists x lab lg i e s o r,
  execution nlc ntenc ntdec true (ncr nA) (nboot nA None) None x lab lg /\ fair x lab lg /\ boots ntdec true (nboot nA None) None /\
  lg i = [NState e (IMsg (MChoke sc)) s o r] /\ s_power s = true /\ 0 < s_height s /\
  ck_height (sc_choke sc) = s_height s /\ s_round s < ck_round (sc_choke sc) /\
  belongs s (ck_from (sc_choke sc)) k /\ k + 1 < 2 ^ 64 /\
  m_height (nd_smr (x i)) = s_height s /\ m_round (nd_smr (x i)) < k.
Proof.
  unfold lag_fits. intros Hf Hk. destruct (trace _ (lag_story _ _) _) as [[tp n]|] eqn:Ep; [|done]. destruct (trace _ lag_turn _) as [[tc n']|] eqn:Ec; [|done].
  rewrite !andb_true_iff in Hf. destruct Hf as ((H1 & H2) & H3). apply bool_decide_eq_true in H1 as ->.
  destruct (one_run nA 1 rd _ _ _ _ _ Ep Ec ltac:(discriminate) (lag_uses _ _) H2) as (Hex & Hfair & _).
  apply existsb_exists in H3 as (y & Hy & Hl). apply elem_of_list_In, elem_of_list_lookup in Hy as [i Hi].
  exists (lx (lag_story (ck_from (sc_choke sc)) sc) lag_turn tp tc n), (llab (lag_story (ck_from (sc_choke sc)) sc) lag_turn), (llg (lag_story (ck_from (sc_choke sc)) sc) lag_turn tp tc), i.
  destruct (one_at nA _ _ _ _ _ Ep Ec ltac:(discriminate) i) as (n1 & g & E & E1 & E2).
  rewrite fold_id in E by (rewrite <-(tp_len _ _ _ _ _ Ep); pose proof (lookup_lt_Some _ _ _ Hi); lia).
  rewrite lookup_app_l in E by (by eapply lookup_lt_Some). rewrite Hi in E. injection E as ->.
  apply lagging_ok in Hl as (e & s & o & r & -> & L2 & L3 & L4 & L5 & L6 & L7 & L8).
  exists e, s, o, r. rewrite E1, E2. split; [exact Hex|]. split; [exact Hfair|]. split; [reflexivity|]. split; [reflexivity|].
  split; [exact L2|]. split; [exact L3|]. split; [exact L4|]. split; [exact L5|]. split; [exact L6|]. split; [exact Hk|]. split; [exact L7|exact L8].
Qed.
(** The hypotheses of C64_later_chokes_are_followed_partial are met, with each of the three reasons. *)
Example lag_applies : forall sc k rd, (sc, k, rd) ∈ lag_list -> exists x lab lg i e s o r,
  execution nlc ntenc ntdec true (ncr nA) (nboot nA None) None x lab lg /\ fair x lab lg /\ boots ntdec true (nboot nA None) None /\
  lg i = [NState e (IMsg (MChoke sc)) s o r] /\ s_power s = true /\ 0 < s_height s /\
  ck_height (sc_choke sc) = s_height s /\ s_round s < ck_round (sc_choke sc) /\
  belongs s (ck_from (sc_choke sc)) k /\ k + 1 < 2 ^ 64 /\
  m_height (nd_smr (x i)) = s_height s /\ m_round (nd_smr (x i)) < k.
Proof.
  pose proof lag_fits_all as H. generalize dependent lag_list. intros l H. rewrite forallb_forall in H. intros sc k rd Hin.
  apply elem_of_list_In, H, andb_true_iff in Hin as [H1 H2]. apply N.ltb_lt in H2. exact (lag_generic sc k rd H1 H2).
Qed.
(** And it gets there. *)
Example lag_follows :
  (fun t => match trace (ncr nA) (lag_story (ck_from (sc_choke (fst t))) (fst t)) (ndnode nA []) with
            | Some (_, n) => Some (s_height (nd_st n), s_round (nd_st n)) | None => None end) <$> lag_chokes =
    [Some (1, 1); Some (1, 2); Some (1, 4)].
Proof. vm_compute. reflexivity. Qed.
