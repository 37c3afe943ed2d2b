(** Model of 2/protocol/hpack.{h,cpp} and 2/protocol/hpack_huffman.{h,cpp}.
    Paths are relative to /repo/src/qbm/http.  The statistics counters (HpackStats) are not
    modelled: nothing reads them back.  Sizes and counters of type size_t are unbounded N
    (a byte string in memory is shorter than 2^64), except where the code relies on wrap-around
    (ring-buffer head, Huffman bit buffer, FNV hash, 64-bit integer overflow checks). *)
From Verif Require Import Base HpackTables.
Local Open Scope N_scope.

Definition UINT64_MAX : N := 18446744073709551615.
Definition w64 (x : N) : N := x mod 18446744073709551616.
Definition w32 (x : N) : N := x mod 4294967296.
Definition w8 (x : N) : N := x mod 256.
Definition len (s : list N) : N := N.of_nat (length s).

(** ** Integers *)

(** 2/protocol/hpack.cpp:384-388: the while loop of encode_integer.  [fuel] bounds the number of
    iterations; N.size_nat of the value is always enough (theorem C08 would fail otherwise). *)
Fixpoint encode_int_tail (fuel : nat) (value : N) : list N :=
  match fuel with
  | O => []
  | S f => if 128 <=? value
           then w8 (N.lor (value mod 128) 128) :: encode_int_tail f (value / 128)
           else [w8 value]
  end.

(** 2/protocol/hpack.cpp:376-390 Encoder::encode_integer *)
Definition encode_integer (prefix_bits n value : N) : list N :=
  let prefix_mask := w8 (N.shiftl 1 n - 1) in
  if value <? prefix_mask then [N.lor prefix_bits (w8 value)]
  else N.lor prefix_bits prefix_mask ::
       encode_int_tail (S (N.size_nat (value - prefix_mask))) (value - prefix_mask).

(** 2/protocol/hpack.cpp:111-136: the do-while loop of decode_integer. *)
Fixpoint decode_int_tail (M value : N) (s : list N) : option (N * list N) :=
  match s with
  | [] => None
  | b :: r =>
      if 64 <=? M then None else
      let term := N.land b 127 in
      if (0 <? M) && (N.shiftr UINT64_MAX M <? term) then None else
      let shifted := w64 (N.shiftl term M) in
      if UINT64_MAX - shifted <? value then None else
      let value' := w64 (value + shifted) in
      if N.land b 128 =? 0 then Some (value', r) else decode_int_tail (M + 7) value' r
  end.

(** 2/protocol/hpack.cpp:92-139 Decoder::decode_integer.  The position pointer is the remaining
    input; bytes_consumed is only compared with -1, so failure is None. *)
Definition decode_integer (n : N) (s : list N) : option (N * list N) :=
  match s with
  | [] => None
  | b :: r =>
      let prefix_mask := w8 (N.shiftl 1 n - 1) in
      let value := N.land b prefix_mask in
      if value <? prefix_mask then Some (value, r) else decode_int_tail 0 value r
  end.

(** ** Huffman *)

(** 2/protocol/hpack_huffman.h:55 HUFFMAN_TABLE[c] *)
Definition hcode (c : N) : N * N := nth (N.to_nat c) HUFFMAN_TABLE (0, 0).

(** The [n] low bits of x, most significant first. *)
Fixpoint bits_of (n : nat) (x : N) : list bool :=
  match n with
  | O => []
  | S k => N.testbit x (N.of_nat k) :: bits_of k x
  end.

(** 2/protocol/hpack_huffman.h:94-99 HuffmanDecodeNode; HNull is a null child pointer. *)
Inductive htree := HNull | HNode (is_leaf : bool) (symbol : N) (left right : htree).

(** 2/protocol/hpack_huffman.cpp:24-43: inserting one code. *)
Fixpoint htree_insert (bits : list bool) (symbol : N) (t : htree) : htree :=
  let '(lf, sy, l, r) :=
    match t with HNull => (false, 0, HNull, HNull) | HNode lf sy l r => (lf, sy, l, r) end in
  match bits with
  | [] => HNode true symbol l r
  | true :: bs => HNode lf sy l (htree_insert bs symbol r)
  | false :: bs => HNode lf sy (htree_insert bs symbol l) r
  end.

(** 2/protocol/hpack_huffman.cpp:18-47 build_decode_tree: the loop over the table. *)
Fixpoint build_from (symbol : N) (tbl : list (N * N)) (t : htree) : htree :=
  match tbl with
  | [] => t
  | (code, nbits) :: rest =>
      build_from (symbol + 1) rest (htree_insert (bits_of (N.to_nat nbits) code) symbol t)
  end.

Definition decode_tree : htree := build_from 0 HUFFMAN_TABLE (HNode false 0 HNull HNull).

(** 2/protocol/hpack_huffman.cpp:49-56, 144-151: the number of code bits of a string. *)
Fixpoint huffman_bits (s : list N) : N :=
  match s with [] => 0 | c :: r => snd (hcode c) + huffman_bits r end.

(** 2/protocol/hpack_huffman.cpp:49-56 should_use_huffman *)
Definition should_use_huffman (s : list N) : bool := (huffman_bits s + 7) / 8 <? len s.

(** 2/protocol/hpack_huffman.cpp:144-151 calculate_huffman_encoded_size *)
Definition calculate_huffman_encoded_size (s : list N) : N := (huffman_bits s + 7) / 8.

(** 2/protocol/hpack_huffman.cpp:69-73: the flush loop (fuel: at least 8 bits leave per round). *)
Fixpoint hflush (fuel : nat) (buf nb : N) : N * N * list N :=
  match fuel with
  | O => (buf, nb, [])
  | S f =>
      if 8 <=? nb then
        let nb' := nb - 8 in
        let b := w8 (N.shiftr buf nb') in
        let '(bufr, nbr, out) := hflush f (N.land buf (N.shiftl 1 nb' - 1)) nb' in
        (bufr, nbr, b :: out)
      else (buf, nb, [])
  end.

(** 2/protocol/hpack_huffman.cpp:58-84 huffman_encode (it appends to output and returns true). *)
Fixpoint huffman_encode_loop (buf nb : N) (s : list N) : list N :=
  match s with
  | [] =>
      if 0 <? nb
      then [w8 (N.lor (w64 (N.shiftl buf (8 - nb))) (N.shiftl 1 (8 - nb) - 1))]
      else []
  | c :: r =>
      let '(code, bits) := hcode c in
      let nb1 := nb + bits in
      let '(buf2, nb2, out) := hflush (N.to_nat nb1) (N.lor (w64 (N.shiftl buf bits)) code) nb1 in
      out ++ huffman_encode_loop buf2 nb2 r
  end.

Definition huffman_encode (s : list N) : list N := huffman_encode_loop 0 0 s.

(** 2/protocol/hpack_huffman.cpp:132-138: follow right children to a leaf, which must be EOS. *)
Fixpoint rightmost_is_eos (t : htree) : bool :=
  match t with
  | HNull => false
  | HNode true sy _ _ => sy =? 256
  | HNode false _ _ r => rightmost_is_eos r
  end.

(** 2/protocol/hpack_huffman.cpp:86-142 huffman_decode.  The two nested loops over bytes and bit
    indices are one loop over the bits.  The pointer comparison with the root is rendered as
    bits_since_leaf = 0: the walk is at the root exactly when no bit was read since a leaf. *)
Fixpoint huffman_walk (node : htree) (since : N) (bits : list bool) : option (list N) :=
  match bits with
  | [] => if since =? 0 then Some []
          else if 7 <? since then None
          else if rightmost_is_eos node then Some [] else None
  | b :: bs =>
      match (match node with HNull => HNull | HNode _ _ l r => if b then r else l end) with
      | HNull => None
      | HNode true sy _ _ =>
          if sy =? 256 then None
          else option_map (cons sy) (huffman_walk decode_tree 0 bs)
      | HNode false sy l r => huffman_walk (HNode false sy l r) (since + 1) bs
      end
  end.

Definition huffman_decode (data : list N) : option (list N) :=
  huffman_walk decode_tree 0 (flat_map (bits_of 8) data).

(** ** Static table *)

(** 2/protocol/hpack.h:180-188 name_hash (32-bit FNV-1a). *)
Definition name_hash (s : list N) : N :=
  fold_left (fun h c => w32 (N.lxor h c * 16777619)) s 2166136261.

(** 2/protocol/hpack.h:205-208 NameIndexSlot *)
Definition slot_t : Type := (N * N)%type.   (* key_hash, table_index *)

Fixpoint upd {A} (l : list A) (i : nat) (x : A) : list A :=
  match l, i with
  | [], _ => []
  | _ :: r, O => x :: r
  | y :: r, S k => y :: upd r k x
  end.

Definition static_name (i : N) : list N := fst (nth (N.to_nat (i - 1)) STATIC_TABLE ([], [])).

(** 2/protocol/hpack.h:226-239: probing for one insertion ([fuel] = remaining probes). *)
Fixpoint index_insert (fuel : nat) (slot h : N) (name : list N) (idx : N) (tbl : list slot_t) : list slot_t :=
  match fuel with
  | O => tbl
  | S f =>
      let '(kh, ti) := nth (N.to_nat slot) tbl (0, 0) in
      if ti =? 0 then upd tbl (N.to_nat slot) (h, w8 idx)
      else if (kh =? h) && beq (static_name ti) name then tbl
      else index_insert f (N.land (slot + 1) 127) h name idx tbl
  end.

(** 2/protocol/hpack.h:219-242 build_name_index *)
Fixpoint build_index_from (i : N) (entries : list (list N * list N)) (tbl : list slot_t) : list slot_t :=
  match entries with
  | [] => tbl
  | (name, _) :: rest =>
      build_index_from (i + 1) rest
        (index_insert 128 (N.land (name_hash name) 127) (name_hash name) name (i + 1) tbl)
  end.

Definition kStaticNameIndex : list slot_t := build_index_from 0 STATIC_TABLE (repeat (0, 0) 128).

(** 2/protocol/hpack.h:507-523 static_table::find_name_match *)
Fixpoint probe_name (fuel : nat) (slot h : N) (name : list N) : option N :=
  match fuel with
  | O => None
  | S f =>
      let '(kh, ti) := nth (N.to_nat slot) kStaticNameIndex (0, 0) in
      if ti =? 0 then None
      else if (kh =? h) && beq (static_name ti) name then Some ti
      else probe_name f (N.land (slot + 1) 127) h name
  end.

Definition find_name_match (name : list N) : option N :=
  probe_name 128 (N.land (name_hash name) 127) (name_hash name) name.

(** 2/protocol/hpack.h:548-555: scanning the run of equal names; [i] is the zero-based index of
    the head of [entries]. *)
Fixpoint scan_run (i : N) (entries : list (list N * list N)) (name value : list N) : option N :=
  match entries with
  | [] => None
  | (n, v) :: rest =>
      if negb (beq n name) then None
      else if beq v value then Some (i + 1)
      else scan_run (i + 1) rest name value
  end.

(** 2/protocol/hpack.h:543-557 static_table::find_exact_match *)
Definition find_exact_match (name value : list N) : option N :=
  match find_name_match name with
  | None => None
  | Some first => scan_run (first - 1) (skipn (N.to_nat (first - 1)) STATIC_TABLE) name value
  end.

(** ** Dynamic table (ring buffer) *)

(** 2/protocol/hpack.h:270-281 DynamicTableEntry; the default entry has size 0. *)
Record entry := mk_entry { e_name : list N; e_value : list N; e_size : N }.
Definition null_entry : entry := mk_entry [] [] 0.
Definition new_entry (n v : list N) : entry := mk_entry n v (len n + len v + 32).

(** 2/protocol/hpack.h:387-392 *)
Record dtable := mk_dt {
  dt_storage : list entry; dt_head : N; dt_count : N; dt_bytes : N; dt_max : N; dt_mask : N }.

Definition dt_init : dtable := mk_dt [] 0 0 0 4096 0.

(** 2/protocol/hpack.h:394-397 slot_of *)
Definition slot_of (d : dtable) (i : N) : N := N.land (w64 (dt_head d + i)) (dt_mask d).

(** 2/protocol/hpack.h:344-347 operator[]: None is an access outside the storage vector
    (undefined behaviour in C++). *)
Definition dt_get (d : dtable) (i : N) : option entry := nth_error (dt_storage d) (N.to_nat (slot_of d i)).

(** 2/protocol/hpack.h:399-405 evict_oldest_impl.  An out-of-range slot makes the model return
    None. *)
Definition dt_evict (d : dtable) : option dtable :=
  let slot := slot_of d (dt_count d - 1) in
  match nth_error (dt_storage d) (N.to_nat slot) with
  | None => None
  | Some e => Some (mk_dt (upd (dt_storage d) (N.to_nat slot) null_entry) (dt_head d) (dt_count d - 1)
                          (w64 (dt_bytes d + 18446744073709551616 - e_size e)) (dt_max d) (dt_mask d))
  end.

(** The two eviction loops (hpack.cpp:39-42 with extra = entry size, hpack.cpp:59-62 with extra = 0);
    at most [count] rounds, each removing one entry. *)
Fixpoint dt_evict_while (fuel : nat) (extra : N) (d : dtable) : option dtable :=
  if (dt_max d <? dt_bytes d + extra) && (0 <? dt_count d) then
    match fuel with
    | O => None
    | S f => match dt_evict d with None => None | Some d' => dt_evict_while f extra d' end
    end
  else Some d.

(** 2/protocol/hpack.h:407-415 clear_storage *)
Fixpoint clear_slots (n : nat) (d : dtable) (st : list entry) : list entry :=
  match n with
  | O => st
  | S k => upd (clear_slots k d st) (N.to_nat (slot_of d (N.of_nat k))) null_entry
  end.
Definition dt_clear (d : dtable) : dtable :=
  mk_dt (clear_slots (N.to_nat (dt_count d)) d (dt_storage d)) 0 0 0 (dt_max d) (dt_mask d).

(** 2/protocol/hpack.cpp:69-90 ensure_capacity_for_one_more.  The copy loop reads slot_of(i) for
    i < count and leaves default entries behind. *)
Definition dt_linear (d : dtable) : list entry :=
  map (fun i => match dt_get d (N.of_nat i) with Some e => e | None => null_entry end)
      (seq 0 (N.to_nat (dt_count d))).
Definition dt_ensure (d : dtable) : dtable :=
  let cap := N.of_nat (length (dt_storage d)) in
  if cap =? 0 then mk_dt (repeat null_entry 128) (dt_head d) (dt_count d) (dt_bytes d) (dt_max d) 127
  else if dt_count d + 1 <=? cap then d
  else mk_dt (dt_linear d ++ repeat null_entry (N.to_nat (2 * cap - dt_count d)))
             0 (dt_count d) (dt_bytes d) (dt_max d) (2 * cap - 1).

(** 2/protocol/hpack.cpp:25-53 DynamicTable::add *)
Definition dt_add (d : dtable) (n v : list N) : option dtable :=
  let e := new_entry n v in
  if dt_max d <? e_size e then Some (dt_clear d)
  else match dt_evict_while (N.to_nat (dt_count d)) (e_size e) d with
       | None => None
       | Some d1 =>
           let d2 := dt_ensure d1 in
           let head := N.land (w64 (dt_head d2 + UINT64_MAX)) (dt_mask d2) in
           if head <? N.of_nat (length (dt_storage d2))
           then Some (mk_dt (upd (dt_storage d2) (N.to_nat head) e) head (dt_count d2 + 1)
                            (dt_bytes d2 + e_size e) (dt_max d2) (dt_mask d2))
           else None
       end.

(** 2/protocol/hpack.cpp:55-67 DynamicTable::set_max_byte_size *)
Definition dt_set_max (d : dtable) (m : N) : option dtable :=
  let d0 := mk_dt (dt_storage d) (dt_head d) (dt_count d) (dt_bytes d) m (dt_mask d) in
  match dt_evict_while (N.to_nat (dt_count d)) 0 d0 with
  | None => None
  | Some d1 => Some (if dt_count d1 =? 0
                     then mk_dt (dt_storage d1) (dt_head d1) (dt_count d1) 0 (dt_max d1) (dt_mask d1)
                     else d1)
  end.

(** ** Header fields *)

(** 2/protocol/hpack.h:432-451 HeaderField *)
Record field := mk_field { f_name : list N; f_value : list N; f_sensitive : bool }.

(** 2/protocol/hpack.h:457-460 hpack_size *)
Definition hpack_size (f : field) : N := len (f_name f) + len (f_value f) + 32.

(** 2/protocol/hpack.h:466-469 is_pseudo_header *)
Definition is_pseudo_header (f : field) : bool :=
  match f_name f with c :: _ => c =? 58 | [] => false end.

(** 2/protocol/hpack.h:480-484 is_sensitive_by_default *)
Definition is_sensitive_by_default (f : field) : bool :=
  beq (f_name f) (str "authorization") || beq (f_name f) (str "cookie")
  || beq (f_name f) (str "proxy-authorization") || is_prefix (str "set-cookie") (f_name f).

(** 2/protocol/hpack.h:596-610 is_valid_header_name (plain char is signed on x86-64). *)
Definition hv_name_char (first c : N) : bool :=
  if ((schar c <? 33)%Z || (126 <? schar c)%Z || (c =? 58) || (c =? 32) || (c =? 9))
  then (c =? 58) && (first =? 58) else true.
Definition hv_is_valid_name (n : list N) : bool :=
  match n with [] => false | first :: _ => forallb (hv_name_char first) n end.

(** 2/protocol/hpack.h:617-626 is_valid_header_value *)
Definition hv_value_char (c : N) : bool :=
  negb ((schar c <? 32)%Z && negb (c =? 9)) && negb (c =? 127).
Definition hv_is_valid_value (v : list N) : bool := forallb hv_value_char v.

(** 2/protocol/hpack.h:633-636 is_valid_header_field *)
Definition hv_is_valid_field (f : field) : bool := hv_is_valid_name (f_name f) && hv_is_valid_value (f_value f).

(** ** Encoder *)

(** 2/protocol/hpack.cpp:392-411 encode_string_literal (huffman_encode always returns true). *)
Definition encode_string_literal (s : list N) (huffman_allowed : bool) : list N :=
  if huffman_allowed && should_use_huffman s
  then encode_integer 128 7 (len (huffman_encode s)) ++ huffman_encode s
  else encode_integer 0 7 (len s) ++ s.

(** 2/protocol/hpack.h:776-780; _peer_max_dynamic_table_octets is written and never read
    except in the setter itself. *)
Record encoder := mk_enc { enc_table : dtable; enc_peer_max : N }.
Definition enc_init : encoder := mk_enc dt_init 4096.

(** 2/protocol/hpack.cpp:441-452: the combined scan.  [k] entries remain, [i] is the current
    index, [acc] the last name match.  Some (inl j): exact match with HPACK index j;
    Some (inr acc): none; None: access outside the ring. *)
Fixpoint scan_dynamic (k : nat) (i : N) (acc : option N) (d : dtable) (name value : list N)
  : option (N + option N) :=
  match k with
  | O => Some (inr acc)
  | S k' =>
      match dt_get d i with
      | None => None
      | Some e =>
          if beq (e_name e) name then
            if beq (e_value e) value then Some (inl (61 + i + 1))
            else scan_dynamic k' (i + 1) (Some (61 + i + 1)) d name value
          else scan_dynamic k' (i + 1) acc d name value
      end
  end.

(** 2/protocol/hpack.cpp:464-472, 475-483, 487-495: one literal representation. *)
Definition encode_literal (pattern n : N) (dyn st : option N) (f : field) : list N :=
  (match dyn, st with
   | Some i, _ => encode_integer pattern n i
   | None, Some i => encode_integer pattern n i
   | None, None => encode_integer pattern n 0 ++ encode_string_literal (f_name f) (negb (is_pseudo_header f))
   end) ++ encode_string_literal (f_value f) true.

(** 2/protocol/hpack.cpp:421-496: the body of the loop, for one field that passed validation. *)
Definition encode_field (d : dtable) (f : field) : option (list N * dtable) :=
  match find_exact_match (f_name f) (f_value f) with
  | Some i => Some (encode_integer 128 7 i, d)
  | None =>
      match scan_dynamic (N.to_nat (dt_count d)) 0 None d (f_name f) (f_value f) with
      | None => None
      | Some (inl i) => Some (encode_integer 128 7 i, d)
      | Some (inr dyn) =>
          let st := find_name_match (f_name f) in
          let is_sensitive := f_sensitive f || is_sensitive_by_default f in
          let is_pseudo := is_pseudo_header f in
          if is_sensitive || is_pseudo then Some (encode_literal 16 4 dyn st f, d)
          else if (hpack_size f <=? dt_max d) && negb is_sensitive && negb is_pseudo then
            match dt_add d (f_name f) (f_value f) with
            | None => None
            | Some d' => Some (encode_literal 64 6 dyn st f, d')
            end
          else Some (encode_literal 0 4 dyn st f, d)
      end
  end.

(** 2/protocol/hpack.cpp:413-502 Encoder::encode.  Result: table, bytes appended to out_buffer,
    return value.  None: an access outside the ring buffer. *)
Fixpoint encode_fields (d : dtable) (fs : list field) : option (dtable * list N * bool) :=
  match fs with
  | [] => Some (d, [], true)
  | f :: rest =>
      if negb (hv_is_valid_field f) then Some (d, [], false)
      else match encode_field d f with
           | None => None
           | Some (bytes, d') =>
               match encode_fields d' rest with
               | None => None
               | Some (d'', out, ok) => Some (d'', bytes ++ out, ok)
               end
           end
  end.
Definition encode (e : encoder) (fs : list field) : option (encoder * list N * bool) :=
  match encode_fields (enc_table e) fs with
  | None => None
  | Some (d, out, ok) => Some (mk_enc d (enc_peer_max e), out, ok)
  end.

(** 2/protocol/hpack.h:837-845 set_peer_max_dynamic_table_size *)
Definition enc_set_peer_max (e : encoder) (m : N) : option encoder :=
  if m <? dt_max (enc_table e)
  then option_map (fun d => mk_enc d m) (dt_set_max (enc_table e) m)
  else Some (mk_enc (enc_table e) m).

(** 2/protocol/hpack.h:847-850 set_max_capacity *)
Definition enc_set_max_capacity (e : encoder) (m : N) : option encoder :=
  option_map (fun d => mk_enc d (enc_peer_max e)) (dt_set_max (enc_table e) m).

(** 2/protocol/hpack.h:852-856 Encoder::reset *)
Definition enc_reset (e : encoder) : encoder := mk_enc (dt_clear (enc_table e)) (enc_peer_max e).

(** ** Decoder *)

(** 2/protocol/hpack.cpp:141-176 decode_string_literal.  inl flag: failure, flag = whether
    out_is_possibly_incomplete is set to true by this call. *)
Definition decode_string_literal (s : list N) : bool + (list N * list N) :=
  match s with
  | [] => inl false
  | first :: _ =>
      match decode_integer 7 s with
      | None => inl false
      | Some (l, rest) =>
          if len rest <? l then inl true
          else
            let raw := firstn (N.to_nat l) rest in
            let rest' := skipn (N.to_nat l) rest in
            if negb (N.land first 128 =? 0) then
              match huffman_decode raw with
              | None => inl true
              | Some v => inr (v, rest')
              end
            else inr (raw, rest')
      end
  end.

(** 2/protocol/hpack.h:654-659 *)
Record decoder := mk_dec { dec_table : dtable; dec_limit : N; dec_max_list : N }.
Definition dec_init : decoder := mk_dec dt_init 4096 4294967295.

(** 2/protocol/hpack.cpp:178-219 get_dynamic_table_entry / get_name_from_index (the second reads
    only the name).  Some None: returns false; None: access outside a table (index - 61 wraps for
    index 0). *)
Definition table_entry (d : dtable) (index : N) : option (option (list N * list N)) :=
  if negb (index =? 0) && (index <=? 61) then
    match nth_error STATIC_TABLE (N.to_nat (index - 1)) with
    | None => None
    | Some p => Some (Some p)
    end
  else
    let di := w64 (index + 18446744073709551616 - 61) in
    if (dt_count d <? di) || (di =? 0) then Some None
    else match dt_get d (di - 1) with
         | None => None
         | Some e => Some (Some (e_name e, e_value e))
         end.

(** Result of one instruction / one block: a reported failure with the
    out_is_possibly_incomplete flag, an out-of-range access, or success. *)
Inductive outcome (A : Type) := OFail (incomplete : bool) | OUndef | OOk (a : A).
Arguments OFail {A}. Arguments OUndef {A}. Arguments OOk {A}.

(** 2/protocol/hpack.cpp:254-347: the part common to the three literal representations: index,
    name, value. *)
Definition decode_literal (n : N) (d : dtable) (s : list N) : outcome (list N * list N * list N) :=
  match decode_integer n s with
  | None => OFail true
  | Some (index, r) =>
      let with_name name r1 :=
        match decode_string_literal r1 with
        | inl _ => OFail true
        | inr (value, r2) => OOk (name, value, r2)
        end in
      if index =? 0 then
        match decode_string_literal r with
        | inl fl => OFail fl
        | inr (name, r1) => with_name name r1
        end
      else match table_entry d index with
           | None => OUndef
           | Some None => OFail false
           | Some (Some (name, _)) => with_name name r
           end
  end.

(** 2/protocol/hpack.cpp:233-365: one instruction.  [upd_ok] is
    dynamic_table_size_updates_allowed.  Success: new table, decoded field if any, rest. *)
Definition decode_instruction (d : dtable) (limit : N) (upd_ok : bool) (s : list N)
  : outcome (dtable * option field * list N) :=
  match s with
  | [] => OUndef
  | first :: _ =>
      if N.shiftr first 7 =? 1 then
        match decode_integer 7 s with
        | None => OFail true
        | Some (index, r) =>
            if index =? 0 then OFail false
            else match table_entry d index with
                 | None => OUndef
                 | Some None => OFail false
                 | Some (Some (n, v)) => OOk (d, Some (mk_field n v false), r)
                 end
        end
      else if N.shiftr first 6 =? 1 then
        match decode_literal 6 d s with
        | OFail b => OFail b
        | OUndef => OUndef
        | OOk (n, v, r) =>
            match dt_add d n v with
            | None => OUndef
            | Some d' => OOk (d', Some (mk_field n v false), r)
            end
        end
      else if N.shiftr first 4 =? 0 then
        match decode_literal 4 d s with
        | OFail b => OFail b
        | OUndef => OUndef
        | OOk (n, v, r) => OOk (d, Some (mk_field n v false), r)
        end
      else if N.shiftr first 4 =? 1 then
        match decode_literal 4 d s with
        | OFail b => OFail b
        | OUndef => OUndef
        | OOk (n, v, r) => OOk (d, Some (mk_field n v true), r)
        end
      else if N.shiftr first 5 =? 1 then
        if negb upd_ok then OFail false
        else match decode_integer 5 s with
             | None => OFail true
             | Some (m, r) =>
                 if limit <? m then OFail false
                 else match dt_set_max d m with
                      | None => OUndef
                      | Some d' => OOk (d', None, r)
                      end
             end
      else OFail false
  end.

(** 2/protocol/hpack.cpp:221-374 Decoder::decode: the loop.  [size] is
    current_header_list_size_check.  A failing instruction leaves the table as the previous
    instructions left it; the partially filled out_headers of a failed call is not modelled.
    The fuel is the number of input bytes: every instruction consumes at least one. *)
Fixpoint decode_loop (fuel : nat) (d : dtable) (limit maxlist size : N) (upd_ok : bool) (s : list N)
  : dtable * outcome (list field) :=
  match s with
  | [] => (d, OOk [])
  | _ :: _ =>
      match fuel with
      | O => (d, OUndef)
      | S f =>
          match decode_instruction d limit upd_ok s with
          | OFail b => (d, OFail b)
          | OUndef => (d, OUndef)
          | OOk (d', of, r) =>
              let size' := match of with Some x => size + hpack_size x | None => size end in
              if (0 <? maxlist) && (maxlist <? size') then (d', OFail false)
              else
                let '(d'', res) :=
                  decode_loop f d' limit maxlist size'
                    (match of with Some _ => false | None => upd_ok end) r in
                (d'', match res, of with
                      | OOk hs, Some x => OOk (x :: hs)
                      | _, _ => res
                      end)
          end
      end
  end.

Definition decode (e : decoder) (block : list N) : decoder * outcome (list field) :=
  let '(d, res) := decode_loop (length block) (dec_table e) (dec_limit e) (dec_max_list e) 0 true block in
  (mk_dec d (dec_limit e) (dec_max_list e), res).

(** 2/protocol/hpack.h:734-738 set_max_dynamic_table_size *)
Definition dec_set_max_table (e : decoder) (m : N) : option decoder :=
  option_map (fun d => mk_dec d m (dec_max_list e)) (dt_set_max (dec_table e) m).

(** 2/protocol/hpack.h:740-743 set_max_header_list_size *)
Definition dec_set_max_list (e : decoder) (m : N) : decoder := mk_dec (dec_table e) (dec_limit e) m.

(** 2/protocol/hpack.h:745-749 Decoder::reset *)
Definition dec_reset (e : decoder) : decoder := mk_dec (dt_clear (dec_table e)) (dec_limit e) (dec_max_list e).
