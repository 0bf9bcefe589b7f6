(** * Auth: validator list, leader election, bitmaps (src/utils/auth_manage.rs,
    src/utils/rand_proposer.rs, and the parts of the bit-vec, rand_core and rand_pcg crates
    they use). *)
From Verif Require Export Types.

(** ** Stable sort by a byte-string key: Rust's [slice::sort] with the [Ord] instances of
    types.rs:398 ([Node], by address) and types.rs:222 ([SignedVote], by voter). *)
Section Sort.
Context {A : Type} (key : A -> bytes).
Fixpoint kinsert (x : A) (l : list A) : list A :=
  match l with
  | [] => [x]
  | y :: l' => if decide (ble (key x) (key y)) then x :: l else y :: kinsert x l'
  end.
Definition ksort (l : list A) : list A := foldr kinsert [] l.
End Sort.

(** ** Bitmaps (crate bit-vec 0.6): the most significant bit of the first byte is bit 0 *)
(** [BitVec::from_bytes] followed by [iter] *)
Definition byte_bits (b : byte) : list bool :=
  (fun i => N.testbit (b2n b) i) <$> [7; 6; 5; 4; 3; 2; 1; 0].
Definition bits_of (bs : bytes) : list bool := bs ≫= byte_bits.
(** [BitVec::to_bytes]: groups of eight, the last one padded with zeros *)
Definition bit_at (l : list bool) (i : nat) : N :=
  match l !! i with Some true => 1 | _ => 0 end.
Definition pack8 (l : list bool) : byte :=
  n2b (bit_at l 0 * 128 + bit_at l 1 * 64 + bit_at l 2 * 32 + bit_at l 3 * 16 +
       bit_at l 4 * 8 + bit_at l 5 * 4 + bit_at l 6 * 2 + bit_at l 7).
Fixpoint to_bytes_fuel (fuel : nat) (l : list bool) : bytes :=
  match fuel, l with
  | S f, _ :: _ => pack8 l :: to_bytes_fuel f (drop 8 l)
  | _, _ => []
  end.
(** [length l] groups always suffice *)
Definition to_bytes (l : list bool) : bytes := to_bytes_fuel (length l) l.

(** [bitmap.iter().zip(list).filter(|x| x.0).map(|x| x.1)] *)
Definition select {A} (bs : list bool) (l : list A) : list A :=
  (fun x : bool * A => x.2) <$> filter (fun x => x.1 = true) (zip bs l).

(** ** auth_manage.rs:18 [AuthorityManage] *)
Record auth := mkAuth {
  a_addr : list bytes; a_pw : list N; a_vmap : gmap bytes N; a_psum : N; a_vsum : N }.
Global Instance auth_eq_dec : EqDecision auth.
Proof. solve_decision. Defined.
(** auth_manage.rs:28 [new] (and 126 [flush]) *)
Definition auth_new : auth := mkAuth [] [] ∅ 0 0.

(** auth_manage.rs:43-53, one iteration of the loop of [update] *)
Definition auth_push (a : auth) (n : vnode) : auth :=
  mkAuth (a_addr a ++ [n_addr n]) (a_pw a ++ [n_pw n])
    (<[n_addr n := n_vw n]> (a_vmap a)) (w64 (a_psum a + n_pw n)) (w64 (a_vsum a + n_vw n)).
(** auth_manage.rs:39 [update]: flushes, sorts, pushes. The old value is irrelevant; the
    caller's list is left sorted (no caller reads it afterwards). *)
Definition auth_update (l : list vnode) : auth :=
  fold_left auth_push (ksort n_addr l) auth_new.

(** auth_manage.rs:57 [get_vote_weight] *)
Definition get_vote_weight (a : auth) (addr : bytes) : res N :=
  match a_vmap a !! addr with Some w => Ok w | None => Err EInvalidAddress end.
(** auth_manage.rs:116 [contains] *)
Definition auth_contains (a : auth) (addr : bytes) : bool :=
  existsb (fun x => bool_decide (x = addr)) (a_addr a).
(** auth_manage.rs:121 [get_vote_weight_sum] *)
Definition get_vote_weight_sum (a : auth) : N := a_vsum a.
(** auth_manage.rs:135 [len] *)
Definition auth_len (a : auth) : nat := length (a_addr a).

(** auth_manage.rs:84 [is_above_threshold] *)
Fixpoint sum_weights (vmap : gmap bytes N) (l : list bytes) (acc : N) : res N :=
  match l with
  | [] => Ok acc
  | x :: l' =>
      match vmap !! x with
      | Some w => sum_weights vmap l' (w64 (acc + w))
      | None => Err EOther
      end
  end.
Definition is_above_threshold (a : auth) (bitmap : bytes) : res bool :=
  let? acc := sum_weights (a_vmap a) (select (bits_of bitmap) (a_addr a)) 0 in
  Ok (w64 (a_vsum a * 2) <? w64 (acc * 3)).

(** auth_manage.rs:104 [get_voters] *)
Definition get_voters (a : auth) (bitmap : bytes) : list bytes :=
  select (bits_of bitmap) (a_addr a).

(** auth_manage.rs:146 [extract_voters] *)
Definition extract_voters (l : list vnode) (bitmap : bytes) : list bytes :=
  n_addr <$> select (bits_of bitmap) (ksort n_addr l).

(** ** The random generator: rand_pcg 0.3 [Pcg64Mcg] seeded by rand_core 0.6 [seed_from_u64].
    Trusted transcription; checked against the vector in rand_proposer.rs:33 below. *)
Definition rotr (w n x : N) : N :=
  if n =? 0 then x else N.lor (N.shiftr x n) ((N.shiftl x (w - n)) mod 2 ^ w).
Definition pcg32_next (s : N) : N := w64 (s * 6364136223846793005 + 11634580027462260723).
Definition pcg32_out (s : N) : N :=
  rotr 32 (N.shiftr s 59) (w32 (N.shiftr (N.lxor (N.shiftr s 18) s) 27)).
(** four 32-bit little-endian words make the 16-byte seed, read back as a 128-bit integer *)
Definition pcg_seed (seed : N) : N :=
  let s1 := pcg32_next seed in let s2 := pcg32_next s1 in
  let s3 := pcg32_next s2 in let s4 := pcg32_next s3 in
  N.lor (pcg32_out s1 + pcg32_out s2 * 2 ^ 32 + pcg32_out s3 * 2 ^ 64 + pcg32_out s4 * 2 ^ 96) 1.
Definition pcg_next (s : N) : N := (s * 0x2360ED051FC65DA44385DF649FCCF645) mod 2 ^ 128.
Definition pcg_out (s : N) : N :=
  rotr 64 (N.shiftr s 122) (w64 (N.lxor (N.shiftr s 64) s)).

(** rand_proposer.rs:9-12 the rejection loop; [None]: [fuel] digits were all rejected (the
    real loop would go on) *)
Fixpoint draw (fuel : nat) (bound s : N) : option N :=
  match fuel with
  | O => None
  | S f =>
      let s' := pcg_next s in
      if bound <=? pcg_out s' then draw f bound s' else Some (pcg_out s')
  end.
(** rand_proposer.rs:14-20 *)
Fixpoint pick (digit tmp acc : N) (ws : list N) (idx : nat) : nat :=
  match ws with
  | [] => 0%nat
  | w :: ws' =>
      let acc := w64 (acc + w) in
      if digit <? w64 (acc * tmp) then idx else pick digit tmp acc ws' (S idx)
  end.
(** rand_proposer.rs:4 [get_random_proposer_index]; division by zero panics. Not finding an
    acceptable digit within [fuel] draws is reported as [Panic] too (non-termination). *)
Definition get_random_proposer_index (fuel : nat) (seed : N) (ws : list N) (sum : N) : res nat :=
  if sum =? 0 then Panic
  else
    let tmp := u64_max / sum in
    match draw fuel (w64 (sum * tmp)) (pcg_seed seed) with
    | None => Panic
    | Some d => Ok (pick d tmp 0 ws 0)
    end.

(** Leader configuration: cargo feature [random_leader], the function
    [|x| *get_primes_less_than_x(x).last().unwrap_or(&1)] of the prime_tools crate (an oracle:
    its source is not in the repository), and the fuel for the rejection loop. *)
Record lcfg := mkLcfg { lc_random : bool; lc_prime : N -> N; lc_fuel : nat }.

(** auth_manage.rs:180 [rotation_leader_index]; [% 0] panics *)
Definition rotation_leader_index (lc : lcfg) (height round : N) (len : nat) : res nat :=
  let len32 := w32 (N.of_nat len) in
  if len32 =? 0 then Panic
  else Ok (N.to_nat (w64 (height * lc_prime lc len32 + round) mod len32)).

(** auth_manage.rs:64 [get_proposer] *)
Definition get_proposer (lc : lcfg) (a : auth) (height round : N) : res bytes :=
  let? idx :=
    (if lc_random lc
     then get_random_proposer_index (lc_fuel lc) (w64 (height + round)) (a_pw a) (a_psum a)
     else rotation_leader_index lc height round (length (a_addr a))) in
  match a_addr a !! idx with Some x => Ok x | None => Err EOther end.

(** auth_manage.rs:162 [get_leader]; the weight sum is a u32; indexing out of range panics *)
Definition get_leader (lc : lcfg) (height round : N) (l : list vnode) : res bytes :=
  let l := ksort n_addr l in
  let sum := foldl (fun s n => w32 (s + n_pw n)) 0 l in
  let? idx :=
    (if lc_random lc
     then get_random_proposer_index (lc_fuel lc) (w64 (height + round)) (n_pw <$> l) sum
     else rotation_leader_index lc height round (length l)) in
  match l !! idx with Some n => Ok (n_addr n) | None => Panic end.

(** The repository's own test vector (rand_proposer.rs:27): a test of the transcription. *)
Example pcg_vector :
  (fun s => get_random_proposer_index 10 s [1; 1; 1; 1] 4) <$> [1; 2; 3; 4; 5; 6; 7; 8; 9] =
  Ok <$> [3; 2; 0; 0; 3; 1; 2; 2; 0]%nat.
Proof. vm_compute. reflexivity. Qed.

(** process.rs:1270-1276 in [generate_qc]: bit [i] is set iff the [i]-th validator is among the
    voters, then [BitVec::to_bytes] *)
Definition voters_bitmap (a : auth) (voters : list bytes) : bytes :=
  to_bytes ((fun x => bool_decide (x ∈ voters)) <$> a_addr a).
