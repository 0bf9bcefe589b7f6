#!/usr/bin/env python3
"""The wrong programs of tools/mutate.py. usage: mutants.py > mutants.json"""
import json
M = []
def mu(id, file, definition, old, new, edit, breaks, targets):
    M.append(dict(id=id, file=file, definition=definition, old=old, new=new, edit=edit, breaks=breaks,
                  targets=[t + '.v' for t in targets.split()]))
S = 'Smr.v'
mu('m01', S, 'handle_precommit', "throw_event (EvCommit hash) ;;s\n          smod (goto_step SCommit)", "throw_event (EvCommit (m_hash m)) ;;s\n          smod (goto_step SCommit)",
   "commits the machine's current proposal instead of the certificate's hash", 'C26', 'P_Smr')
mu('m02', S, 'handle_prevote', "else if (round =? m_round m) && step_gt (m_step m) SPrevote then sret tt", "else if (round =? m_round m) && step_gt (m_step m) SPrecommit then sret tt",
   "a prevote certificate is still accepted in the precommit step (boundary)", 'C22', 'P_Smr')
mu('m03', S, 'handle_proposal', "else if step_gt (m_step m) SPropose then sret tt\n", "else if step_gt (m_step m) SPrevote then sret tt\n",
   "a proposal is still accepted in the prevote step (boundary)", 'C22', 'P_Smr')
mu('m04', S, 'handle_proposal', "            | Some _ => proposal_tail\n", "            | Some _ => smod (set_proposal hash) ;;s proposal_tail\n",
   "a locked machine prevotes an unlocked proposal", 'C23', 'P_Smr')
mu('m05', S, 'update_polc', "| [] => remove_polc m\n  | _ =>", "| [] => m\n  | _ =>",
   "an empty prevote certificate no longer removes the lock", 'C24', 'P_Smr')
mu('m06', S, 'handle_prevote', "smod (update_polc hash round) ;;s", "smod (set_proposal hash) ;;s",
   "a prevote certificate no longer locks (dropped update)", 'C24', 'P_Smr')
mu('m07', S, 'handle_prevote', "throw_event (EvPrecommit (m_height m) (m_round m) [] (lock_rnd m)) ;;s", "throw_event (EvPrecommit (m_height m) (m_round m) (m_hash m) (lock_rnd m)) ;;s",
   "after a prevote timeout the proposal is precommitted", 'C25', 'P_Smr')
mu('m08', S, 'handle_brake_timeout', "negb (round =? m_round m) then sret tt\n  else throw_event (EvBrake height round (lock_rnd m)))", "false then sret tt\n  else throw_event (EvBrake height round (lock_rnd m)))",
   "a brake timeout of another round is acted upon", 'C29', 'P_Smr')
mu('m09', S, 'handle_precommit', "      if negb (round =? m_round m) then sret tt\n      else\n        smod (goto_step SBrake) ;;s", "      if round <? m_round m then sret tt\n      else\n        smod (goto_step SBrake) ;;s",
   "a precommit timeout of a later round is acted upon", 'C29', 'P_Smr')
mu('m10', S, 'handle_new_height', "if ss_height s <=? m_height m then serr EOther", "if ss_height s <? m_height m then serr EOther",
   "the same height is entered again", 'C21', 'P_Smr')
mu('m11', S, 'smr_goto_new_height', "set_m_lock None (set_proposal [] (goto_step", "id (set_proposal [] (goto_step",
   "the lock survives the height", 'C24', 'P_Smr')
mu('m12', S, 'handle_continue_round', "(round <=? m_round m) then sret tt\n  else\n    smod (set_m_round (round - 1))", "(round <? m_round m) then sret tt\n  else\n    smod (set_m_round (round - 1))",
   "a choke certificate re-enters the current round", 'C21', 'P_Smr')
mu('m13', S, 'set_timer_after_wal', "| SPrevote => throw_timer_event (EvPrevote", "| SPrevote => throw_event (EvPrevote",
   "after a restart in the prevote step the machine votes again", 'C33', 'P_Smr')
mu('m14', S, 'handle_wal', "set_m_lock (sb_polc i) m) ;;s", "m) ;;s",
   "the lock is not restored from the log", 'C33', 'P_Smr')
mu('m15', S, 'handle_precommit', "smod (goto_step SBrake) ;;s\n        throw_event (EvBrake (m_height m) (m_round m) (lock_rnd m))", "smod (goto_step SBrake)",
   "the precommit timeout reports nothing, so no choke and no timer", 'C30', 'P_Smr')
mu('m16', S, 'handle_proposal', "else if (lockr =? l_round l) && negb (bool_decide (hash = m_hash m)) then\n                  serr ECorrectness", "else if false then\n                  serr ECorrectness",
   "the conflict of two certificates of one round is not noticed", 'C23', 'P_Smr')
mu('m17', S, 'handle_precommit', "          if round <? m_round m then sret tt\n          else\n            smod (set_m_round round) ;;s", "          if false then sret tt\n          else\n            smod (set_m_round round) ;;s",
   "an empty precommit certificate of an old round takes the machine back", 'C21', 'P_Smr')
T = 'Timer.v'
mu('m20', T, 'set_timer', "EvBrake _ _ _ => ms | _ => ms * 2 ^ coef", "EvBrake _ _ _ => ms | _ => ms * coef", "linear back-off", 'C31', 'P_Smr')
mu('m21', T, 'get_timeout', "Ok (ratio_ms (tc_interval c) (tc_precommit c))", "Ok (ratio_ms (tc_interval c) (tc_prevote c))", "wrong ratio for the precommit step (swapped)", 'C31', 'P_Smr')
mu('m22', T, 'timer_trigger', "EvPrecommit h r _ _ => if h <? tm_height t then Ok None else mk TPrecommitQC r h", "EvPrecommit h r _ _ => if h <? tm_height t then Ok None else mk TPrevoteQC r h", "wrong trigger type", 'C30', 'P_Smr')
mu('m23', T, 'timer_note', "match ni with Some i => tc_set_interval i c | None => c end", "match ni with Some i => c | None => c end", "the new interval is ignored", 'C31', 'P_Smr')
mu('m24', T, 'timer_trigger', "if (h <? tm_height t) || (r <? tm_round t) then Ok None else mk TProposal r h", "if (h <=? tm_height t) || (r <? tm_round t) then Ok None else mk TProposal r h", "the proposal timeout of the current height is dropped (boundary)", 'C30', 'P_Smr')
A = 'Auth.v'
mu('m30', A, 'is_above_threshold', "w64 (a_vsum a * 2) <? w64 (acc * 3)", "w64 (a_vsum a * 2) <=? w64 (acc * 3)", "at least two thirds instead of more (boundary)", 'C08', 'P_Auth')
mu('m31', A, 'auth_update', "fold_left auth_push (ksort n_addr l) auth_new", "fold_left auth_push l auth_new", "the list is not sorted", 'C05', 'P_Auth')
mu('m32', A, 'byte_bits', "[7; 6; 5; 4; 3; 2; 1; 0]", "[0; 1; 2; 3; 4; 5; 6; 7]", "bits of a byte read in the other order", 'C09', 'P_Auth')
mu('m33', A, 'pick', "if digit <? w64 (acc * tmp) then idx", "if digit <=? w64 (acc * tmp) then idx", "boundary in the weighted choice", 'C07', 'P_Auth')
mu('m34', A, 'rotation_leader_index', "w64 (height * lc_prime lc len32 + round) mod len32", "w64 (height * lc_prime lc len32 + round / 2) mod len32", "the leader changes every other round only", 'C06', 'P_Auth')
mu('m35', A, 'get_proposer', "(w64 (height + round)) (a_pw a) (a_psum a)", "(w64 (height + round)) (a_pw a) (a_vsum a)", "vote weights summed instead of propose weights", 'C07', 'P_Auth')
mu('m36', A, 'draw', "if bound <=? pcg_out s' then draw", "if false then draw", "no rejection: biased choice", 'C07', 'P_Auth')
mu('m37', A, 'extract_voters', "n_addr <$> select (bits_of bitmap) (ksort n_addr l)", "n_addr <$> select (bits_of bitmap) l", "the public helper does not sort", 'C05', 'P_Auth')
mu('m38', A, 'auth_push', "(w64 (a_vsum a + n_vw n))", "(w64 (a_vsum a + n_pw n))", "total vote weight sums propose weights", 'C08', 'P_Auth')
C = 'Collection.v'
mu('m40', C, 'votes_insert', "  | Some _ => vs\n  | None =>\n      mkVotes", "  | Some _\n  | None =>\n      mkVotes", "a second vote of a validator is counted too", 'C10', 'P_Coll')
mu('m41', C, 'split_off', "till <= kv.1", "till < kv.1", "flush drops the boundary height", 'C13', 'P_Coll')
mu('m42', C, 'prc_insert', "if decide (sp' = sp) then Some rc else None", "Some (<[round := sp]> rc)", "the last proposal wins", 'C12', 'P_Coll')
mu('m43', C, 'cc_max_round', "(nodes_num * 2 <? size kv.2 * 3)%nat", "(nodes_num * 2 <=? size kv.2 * 3)%nat", "choke threshold boundary", 'C14', 'P_Coll')
mu('m44', C, 'key_desc', "b.1 <= a.1", "a.1 <= b.1", "lowest round first", 'C14', 'P_Coll')
mu('m45', C, 'qcpair_set', "| Precommit => mkQcPair (qp_prevote p) (Some q)", "| Precommit => mkQcPair (Some q) (qp_precommit p)", "a precommit certificate is stored as the prevote one", 'C15', 'P_Coll')
mu('m46', C, 'vc_insert_vote', "  let h := v_height (sv_vote v) in\n  <[h :=", "  let h := v_round (sv_vote v) in\n  <[h :=", "votes filed under their round", 'C11', 'P_Coll')
mu('m47', C, 'cc_insert', "<[sc_addr sc := sc]> (default ∅ (cc_chokes c !! round))", "<[sc_addr sc := sc]> ∅", "earlier chokes of the round are forgotten", 'C14', 'P_Coll')
V = 'Verify.v'
K = 'Codec.v'
mu('m50', K, 'dec_vote', "let? h := at b 0 u64 in let? r := at b 1 u64 in let? tmp := at b 2 u8 in\n     let? t := vtype_of tmp in let? x := at b 3 dec_str in Ok (mkVote h r t x)", "let? h := at b 0 u64 in let? r := at b 1 u64 in let? tmp := at b 2 u8 in\n     let? t := vtype_of tmp in let? x := at b 3 dec_str in Ok (mkVote r h t x)", "height and round swapped when a vote is decoded", 'C01', 'P_Codec')
mu('m51', K, 'vote_rlp', "RList [r_uint (v_height v); r_uint (v_round v); r_uint (vtype_u8 (v_type v)); RStr (v_hash v)]", "RList [r_uint (v_height v); r_uint (v_round v); r_uint 1; RStr (v_hash v)]", "the vote type is not in the signed bytes", 'C03', 'P_Codec')
mu('m52', K, 'hashchoke_rlp', "RList [r_uint (hc_height c); r_uint (hc_round c)]", "RList [r_uint (hc_round c)]", "the height is not in the signed bytes of a choke", 'C03', 'P_Codec')
mu('m53', K, 'dec_upfrom', "else if tmp =? 2 then let? q := at b 1 dec_aggchoke in Ok (UFChoke q)", "else if tmp =? 3 then let? q := at b 1 dec_aggchoke in Ok (UFChoke q)", "wrong tag for a choke certificate", 'C01', 'P_Codec')
mu('m54', K, 'dec_vnode', "let? v := at b 2 u32 in\n     Ok (mkVNode a p v)", "let? v := at b 2 u32 in\n     Ok (mkVNode a v p)", "the two weights swapped", 'C02', 'P_Codec')
mu('m55', K, 'proposal_rlp', "r_opt polc_rlp (p_lock p);", "RList [];", "the proof of lock is not in the signed bytes", 'C03', 'P_Codec')
mu('m56', V, 'verify_msg', "  | MChoke sc =>\n      cr_verify cr (sc_sig sc) (cr_hash cr (enc (hashchoke_rlp (choke_to_hash (sc_choke sc)))))\n        (sc_addr sc)\n", "  | MChoke sc => true\n", "chokes are not verified", 'C18', 'P_Verify')
mu('m57', V, 'verify_qc', "(cr_hash cr (enc (vote_rlp (to_vote q)))) voters", "(cr_hash cr (enc (vote_rlp (to_vote q)))) (a_addr a)", "the aggregate is checked against every validator", 'C16', 'P_Verify')
mu('m58', V, 'verify_msg', "| Some l => verify_qc cr a (pl_votes l)", "| Some l => true", "the proof of lock is not verified", 'C17', 'P_Verify')
X = 'State.v'
mu('m60', X, 'handle_vote_event', "    save_wal_with_lock_round (vtype_step t) lock_round ;;\n    get (fun s =>\n      if s_leader s then", "    get (fun s =>\n      if s_leader s then",
   "votes are not recorded before they leave", 'C32', 'P_Wal')
mu('m61', X, 'handle_commit', "save_wal SCommit (Some (mkWalLock (s_round s) qc content)) ;;\n", "", "the commit is not recorded first", 'C34', 'P_Wal')
mu('m62', X, 'handle_commit', "(mkProof (s_height s) (av_round qc) hash (av_sig qc))", "(mkProof (s_height s) (s_round s) hash (av_sig qc))", "the proof carries the node's round", 'C36', 'P_Wal')
mu('m63', X, 'goto_new_height', "if st_height stt <=? s_height s0 then ret tt", "if st_height stt <? s_height s0 then ret tt", "a status of the same height is adopted", 'C44 C37', 'P_Msg P_Wal')
mu('m64', X, 'filter_message', "if w64 (s_height s + FUTURE_HEIGHT_GAP) <? height then true", "if w64 (s_height s + FUTURE_HEIGHT_GAP + 1) <? height then true", "gap boundary", 'C42', 'P_Msg')
mu('m65', X, 'verify_proposer', "if decide (a = p) then ret tt else fail EProposal", "ret tt", "any validator's proposal is accepted", 'C41', 'P_Round')
mu('m66', X, 'handle_new_round', "trigger_smr (mk_trigger TProposal hash lock_round (s_round s) (s_height s)) ;;\n        check_block hash block).", "trigger_smr (mk_trigger TProposal hash lock_round (s_round s) (s_height s))).", "the leader does not check its own block", 'C38 / C40', 'P_Round P_Cert')
mu('m67', X, 'publish_qc', "if try_get_full_txs s hash then", "if true then", "certificates for unchecked blocks reach the state machine", 'C38', 'P_Cert')
mu('m68', X, 'handle_signed_vote', "verify_address (sv_voter sv) ;;", "ret tt ;;", "votes of outsiders are stored", 'C39', 'P_Cert')
mu('m69', X, 'generate_qc', "voters_bitmap (s_auth s) voters", "voters_bitmap (s_auth s) (a_addr (s_auth s))", "the certificate names every validator", 'C39', 'P_Cert')
mu('m70', X, 'handle_msg', "if negb (s_power s) && negb (is_rich_status m) then ret tt", "if false then ret tt", "an observer treats messages", 'C43', 'P_Msg')
mu('m71', X, 'on_raw', "else if s_height s =? h then emit (AVerify (s_auth s) m)", "else if s_height s =? h then emit (AQueue m)", "messages of the current height are not verified", 'C20', 'P_Verify')
mu('m72', X, 'handle_aggregated_choke', "length (ac_voters q) * 3 <=? auth_len (s_auth s) * 2", "length (ac_voters q) * 3 <? auth_len (s_auth s) * 2", "boundary of the claimed voters", 'C19', 'P_Verify')
mu('m73', X, 'make_proposal', "  | None =>\n      emit (AGetBlock (s_height s)) ;;", "  | None =>\n      emit (AGetBlock (s_round s)) ;;", "asks a block for the wrong height", 'C40', 'P_Round')
mu('m74', X, 'is_proposer', "get_proposer lc (s_auth s) (s_height s) (s_round s)", "get_proposer lc (s_auth s) (s_round s) (s_height s)", "swapped arguments of the election", 'C40', 'P_Round')
mu('m75', X, 'view_change_reason', "then RNoPrevoteQC", "then RNoPrecommitQC", "wrong reason", 'C48', 'P_Round')
mu('m76', X, 'handle_new_round', "if negb (new_round =? INIT_ROUND) then", "if false then", "view changes are not reported", 'C48', 'P_Round')
mu('m77', X, 'goto_new_height', "trigger_smr (new_height_trigger (status_smr stt))", "ret tt", "the state machine is not told of the new height", 'C44', 'P_Msg')
mu('m78', X, 'goto_new_height', "set_s_chokes chokecol_new (set_s_blocks ∅ s)", "(set_s_blocks ∅ s)", "chokes survive the height", 'C44 / C20', 'P_Msg P_Verify')
mu('m79', X, 'handle_brake', "        save_wal_with_lock_round SBrake lock_round ;;\n", "", "chokes are not recorded before they leave", 'C32', 'P_Wal')
mu('m80', X, 'transmit', "emit (ATransmit (s_laddr s) m)", "emit (ATransmit (s_addr s) m)", "votes sent to oneself", 'C32 / C40 (addressee of a vote)', 'P_Wal P_Round')
mu('m81', X, 'handle_signed_choke', "else if ck_round ck <? s_round s then ret tt", "else if false then ret tt", "old chokes are counted", 'C19 / C18', 'P_Verify')
mu('m82', X, 'start_with_wal', "handle_brake (wi_round w) (wl_round <$> wi_lock w)", "handle_brake (wi_round w) None", "after a restart in the brake step the lock is dropped from the record", 'C32', 'P_Wal')
mu('m83', X, 'save_wal_with_lock_round', "  | None => save_wal step None\n", "  | None => ret tt\n", "unlocked steps are not recorded", 'C32', 'P_Wal')
mu('m84', X, 'vote_process', "(av_hash qc) None (s_round s) (s_height s))", "(av_hash qc) None (w64 (s_round s + 1)) (s_height s))", "the certificate is passed on with the wrong round", 'C38 / C39', 'P_Cert')
mu('m85', X, 'handle_signed_proposal', "get (fun s => props_insert (s_height s) (s_round s) sp) ;;\n", "", "a second proposal of the leader is accepted", 'C41', 'P_Round')
mu('m86', X, 'handle_commit', "emit (ACommit (s_height s) c) ;;", "emit (ACommit (w64 (s_height s + 1)) c) ;;", "commits under the wrong height", 'C36 C37', 'P_Wal')
mu('m87', X, 'handle_resp', "if negb (vr_height r =? s_height s) then ret tt", "if false then ret tt", "an answer about another height is taken", 'C38', 'P_Cert')
mu('m88', X, 'set_update_from', "| Some qc => modify (set_s_from (UFChoke qc))", "| Some qc => ret tt", "the cause of the round is not recorded", 'C18 (justification carried by chokes)', 'P_Verify P_Round')
mu('m89', X, 'start_with_wal', "| Some l => handle_commit (av_hash (wl_votes l))", "| Some l => ret tt", "a recorded commit is not redone", 'C34', 'P_Wal')
mu('m90', X, 'goto_new_height', "set_s_power (is_consensus_node stt (s_addr s))", "set_s_power true", "the node thinks it always is a validator", 'C43', 'P_Msg')
N = 'Node.v'
if __name__ == '__main__':
    print(json.dumps(M, indent=1))
