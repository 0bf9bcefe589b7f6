(** * Rlp: the part of the crate rlp 0.5 that src/codec.rs uses.

    The crate's source is not in /repo; this follows its published behaviour (trusted base).
    Encoding: [RlpStream] builds the canonical encoding of a tree of byte strings and lists, the
    tree being given by the begin_list/append calls (all begin_list counts of codec.rs equal the
    number of appends). Decoding: [Rlp] is a view on a byte slice; it is lazy and does not
    require canonical input, so it is modelled on bytes, not on trees. All decoder errors are
    [EDecode]. *)
From Verif Require Export Types.

Definition blen (b : bytes) : N := N.of_nat (length b).

(** ** Encoding *)
Inductive rlp := RStr (b : bytes) | RList (l : list rlp).

(** little-endian base-256 digits without leading zeros, at most [k] of them *)
Fixpoint le_digits (k : nat) (n : N) : bytes :=
  match k with
  | O => []
  | S k' => if n =? 0 then [] else n2b (n mod 256) :: le_digits k' (n / 256)
  end.
(** big-endian bytes of a 64-bit integer without leading zeros (rlp impls.rs
    impl_encodable_for_u, stream.rs insert_size) *)
Definition be_bytes (n : N) : bytes := rev (le_digits 8 n).

(** stream.rs: size header, short form below 56, else length of the length *)
Definition header (short long len : N) : bytes :=
  if len <=? 55 then [n2b (short + len)]
  else let d := be_bytes len in n2b (long + blen d) :: d.

(** stream.rs BasicEncoder::encode_value *)
Definition enc_str (b : bytes) : bytes :=
  match b with
  | [x] => if b2n x <? 128 then [x] else header 128 183 (blen b) ++ b
  | _ => header 128 183 (blen b) ++ b
  end.

Fixpoint enc (t : rlp) : bytes :=
  match t with
  | RStr b => enc_str b
  | RList l => let p := concat (map enc l) in header 192 247 (blen p) ++ p
  end.

(** impls.rs: unsigned integers, Option *)
Definition r_uint (n : N) : rlp := RStr (be_bytes n).
Definition r_opt {A} (f : A -> rlp) (o : option A) : rlp :=
  match o with None => RList [] | Some a => RList [f a] end.

(** ** Decoding *)
Definition be_val (b : bytes) : N := foldl (fun acc x => acc * 256 + b2n x) 0 b.

(** rlpin.rs decode_usize, on a non-empty slice *)
Definition decode_usize (b : bytes) : option N :=
  match b with
  | [] => None
  | x :: _ => if (8 <? blen b) || (b2n x =? 0) then None else Some (be_val b)
  end.

(** rlpin.rs calculate_payload_info *)
Definition long_info (b : bytes) (lol : N) : option (N * N) :=
  match b with
  | _ :: x :: _ =>
      if (b2n x =? 0) || (blen b <? 1 + lol) then None
      else match decode_usize (take (N.to_nat lol) (drop 1 b)) with
           | Some v => if v <=? 55 then None else Some (1 + lol, v)
           | None => None
           end
  | _ => None
  end.
(** rlpin.rs PayloadInfo::from and BasicDecoder::payload_info: (header length, value length) *)
Definition payload_info (b : bytes) : option (N * N) :=
  match b with
  | [] => None
  | x :: _ =>
      let l := b2n x in
      let r := if l <=? 127 then Some (0, 1)
               else if l <=? 183 then Some (1, l - 128)
               else if l <=? 191 then long_info b (l - 183)
               else if l <=? 247 then Some (1, l - 192)
               else long_info b (l - 247) in
      match r with
      | Some (h, v) => if h + v <=? blen b then Some (h, v) else None
      | None => None
      end
  end.

(** rlpin.rs Rlp::is_list *)
Definition is_list (b : bytes) : bool :=
  match b with [] => false | x :: _ => 192 <=? b2n x end.

Definition ntake (n : N) (b : bytes) : bytes := take (N.to_nat n) b.
Definition ndrop (n : N) (b : bytes) : bytes := drop (N.to_nat n) b.

(** the items found one after the other from the start of [b] *)
Fixpoint items_from (fuel : nat) (b : bytes) : list bytes :=
  match fuel with
  | O => []
  | S f => match payload_info b with
           | None => []
           | Some (h, v) => ntake (h + v) b :: items_from f (ndrop (h + v) b)
           end
  end.
(** rlpin.rs Rlp::at / iter, for the access pattern 0,1,2,... that codec.rs uses. The first
    item is looked for inside the list's payload. The crate's offset cache makes later items be
    looked for from there to the end of the slice; [spill] says whether the payload's end stops
    it (false) or not (true). It matters only for input with bytes after the list, and
    everything below is proved for both. *)
Definition items (spill : bool) (b : bytes) : list bytes :=
  if is_list b then
    match payload_info b with
    | None => []
    | Some (h, v) =>
        let p := ntake v (ndrop h b) in
        match payload_info p with
        | None => []
        | Some (h1, v1) =>
            ntake (h1 + v1) p ::
            (let rest := if spill then ndrop (h + h1 + v1) b else ndrop (h1 + v1) p in
             items_from (length rest) rest)
        end
    end
  else [].

(** Prototype::List(n): is a list of exactly [n] items *)
Definition list_of (spill : bool) (n : nat) (b : bytes) : bool :=
  is_list b && (length (items spill b) =? n)%nat.

(** rlpin.rs BasicDecoder::decode_value *)
Definition dec_str (b : bytes) : res bytes :=
  match b with
  | [] => Err EDecode
  | x :: rest =>
      let l := b2n x in
      if l <=? 127 then Ok [x]
      else if l <=? 183 then
        let n := l - 128 in
        if blen rest <? n then Err EDecode
        else let d := ntake n rest in
             match d with
             | y :: _ => if (l =? 129) && (b2n y <? 128) then Err EDecode else Ok d
             | [] => Ok d
             end
      else if l <=? 191 then
        let lol := l - 183 in
        if blen rest <? lol then Err EDecode
        else match decode_usize (ntake lol rest) with
             | None => Err EDecode
             | Some n => if blen rest <? lol + n then Err EDecode
                         else Ok (ntake n (ndrop lol rest))
             end
      else Err EDecode
  end.

(** impls.rs: integers of [k] bytes *)
Definition dec_uint (k : N) (b : bytes) : res N :=
  let? d := dec_str b in
  match d with
  | [] => Ok 0
  | x :: _ => if (k <? blen d) || (b2n x =? 0) then Err EDecode else Ok (be_val d)
  end.

(** Rlp::val_at *)
Definition val_at {A} (spill : bool) (b : bytes) (i : nat) (dec : bytes -> res A) : res A :=
  match items spill b !! i with Some x => dec x | None => Err EDecode end.

Fixpoint seq_res {A} (l : list (res A)) : res (list A) :=
  match l with
  | [] => Ok []
  | x :: l' => let? a := x in let? r := seq_res l' in Ok (a :: r)
  end.
(** Rlp::list_at / as_list (a non-list yields the empty list) *)
Definition list_at {A} (spill : bool) (b : bytes) (i : nat) (dec : bytes -> res A) : res (list A) :=
  val_at spill b i (fun x => seq_res (map dec (items spill x))).

(** impls.rs: Decodable for Option *)
Definition dec_opt {A} (spill : bool) (dec : bytes -> res A) (b : bytes) : res (option A) :=
  if is_list b then
    match items spill b with
    | [] => Ok None
    | [x] => let? a := dec x in Ok (Some a)
    | _ => Err EDecode
    end
  else Err EDecode.
