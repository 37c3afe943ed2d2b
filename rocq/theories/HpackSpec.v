(** What the HPACK properties C08-C19 mean, independent of the code: RFC 7541 in declarative form.
    Only the literal tables (RFC 7541 Appendices A and B) and the record of a header field are
    shared with the model. *)
From Verif Require Import Base HpackTables.
Local Open Scope N_scope.

(** ** RFC 7541 5.1: integer representation *)

(** Continuation bytes: little-endian base 128, top bit set on all but the last. *)
Inductive VarTail : list N -> N -> Prop :=
| VT_last b : b < 128 -> VarTail [b] b
| VT_more b bs v : 128 <= b -> b < 256 -> VarTail bs v -> VarTail (b :: bs) ((b - 128) + 128 * v).

Inductive IntRepr (n : N) : list N -> N -> Prop :=
| IR_small b : b < 256 -> b mod 2 ^ n < 2 ^ n - 1 -> IntRepr n [b] (b mod 2 ^ n)
| IR_big b bs v : b < 256 -> b mod 2 ^ n = 2 ^ n - 1 -> VarTail bs v ->
                  IntRepr n (b :: bs) (2 ^ n - 1 + v).

(** ** RFC 7541 5.2 and Appendix B: Huffman code *)

(** Bits of a byte, of a code word; most significant first. *)
Definition byte_bits (b : N) : list bool := map (fun i => N.testbit b i) [7; 6; 5; 4; 3; 2; 1; 0].
Definition code_bits (c : N) : list bool :=
  let '(code, n) := nth (N.to_nat c) HUFFMAN_TABLE (0, 0) in
  map (fun i => N.testbit code (n - 1 - N.of_nat i)) (seq 0 (N.to_nat n)).

(** [d] is the Huffman encoding of [s]: the code words in order, then fewer than 8 one bits. *)
Definition HuffRepr (d s : list N) : Prop :=
  exists k, (k <= 7)%nat /\ flat_map byte_bits d = flat_map code_bits s ++ repeat true k.

(** ** RFC 7541 4: the dynamic table, newest entry first *)

Notation pair_t := (list N * list N)%type.
Definition entry_size (p : pair_t) : N := N.of_nat (length (fst p)) + N.of_nat (length (snd p)) + 32.
Definition table_size (t : list pair_t) : N := fold_right (fun p a => entry_size p + a) 0 t.

(** Eviction drops oldest entries only, and no more of them than needed. *)
Definition LongestFit (m : N) (t kept : list pair_t) : Prop :=
  (exists dropped, t = kept ++ dropped) /\ table_size kept <= m /\
  (forall longer dropped, t = longer ++ dropped -> (length kept < length longer)%nat -> m < table_size longer).

Inductive TableOp := TAdd (p : pair_t) | TResize (m : N) | TClear.

(** One operation on (maximum size, contents). *)
Inductive TableStep : N * list pair_t -> TableOp -> N * list pair_t -> Prop :=
| TS_add_big m t p : m < entry_size p -> TableStep (m, t) (TAdd p) (m, [])
| TS_add m t p kept : entry_size p <= m -> LongestFit (m - entry_size p) t kept ->
                      TableStep (m, t) (TAdd p) (m, p :: kept)
| TS_resize m t m' kept : LongestFit m' t kept -> TableStep (m, t) (TResize m') (m', kept)
| TS_clear m t : TableStep (m, t) TClear (m, []).

Inductive TableRun : N * list pair_t -> list TableOp -> N * list pair_t -> Prop :=
| TR_nil s : TableRun s [] s
| TR_cons s op s1 ops s2 : TableStep s op s1 -> TableRun s1 ops s2 -> TableRun s (op :: ops) s2.

(** ** RFC 7541 2.3.3: the index address space *)
Definition Lookup (dyn : list pair_t) (i : N) (p : pair_t) : Prop :=
  1 <= i /\ nth_error (STATIC_TABLE ++ dyn) (N.to_nat (i - 1)) = Some p.

(** ** RFC 7541 5.2: string literals; 6: representations *)

(** RFC 7541 5.1 allows a decoder to limit integers; this one takes values below 2^64 written in
    at most 11 bytes. *)
Definition WireInt (n : N) (bs : list N) (v : N) : Prop :=
  IntRepr n bs v /\ v < 2 ^ 64 /\ (length bs <= 11)%nat.

Inductive StrRepr : list N -> list N -> Prop :=
| SR_plain hd s : WireInt 7 hd (N.of_nat (length s)) -> (exists b r, hd = b :: r /\ b < 128) ->
                  StrRepr (hd ++ s) s
| SR_huff hd d s : WireInt 7 hd (N.of_nat (length d)) -> (exists b r, hd = b :: r /\ 128 <= b) ->
                   bytes_ok s -> HuffRepr d s -> StrRepr (hd ++ d) s.

(** Name of a literal: an index, or index 0 followed by a string. *)
Inductive NameRepr (n : N) (dyn : list pair_t) : list N -> list N -> Prop :=
| NR_index hd i p : WireInt n hd i -> Lookup dyn i p -> NameRepr n dyn hd (fst p)
| NR_literal hd sb s : WireInt n hd 0 -> StrRepr sb s -> NameRepr n dyn (hd ++ sb) s.

Definition starts (lo hi : N) (bs : list N) : Prop := exists b r, bs = b :: r /\ lo <= b /\ b <= hi.

(** One header block instruction: what it emits, and its effect on (maximum, table). *)
Inductive Instr (limit : N) : list N -> N * list pair_t -> option (pair_t * bool) -> N * list pair_t -> Prop :=
| I_indexed bs i p m t :
    starts 128 255 bs -> WireInt 7 bs i -> Lookup t i p ->
    Instr limit bs (m, t) (Some (p, false)) (m, t)
| I_incremental nb name vb value m t st' :
    starts 64 127 nb -> NameRepr 6 t nb name -> StrRepr vb value ->
    TableStep (m, t) (TAdd (name, value)) st' ->
    Instr limit (nb ++ vb) (m, t) (Some ((name, value), false)) st'
| I_without nb name vb value m t :
    starts 0 15 nb -> NameRepr 4 t nb name -> StrRepr vb value ->
    Instr limit (nb ++ vb) (m, t) (Some ((name, value), false)) (m, t)
| I_never nb name vb value m t :
    starts 16 31 nb -> NameRepr 4 t nb name -> StrRepr vb value ->
    Instr limit (nb ++ vb) (m, t) (Some ((name, value), true)) (m, t)
| I_resize bs m' m t st' :
    starts 32 63 bs -> WireInt 5 bs m' -> m' <= limit -> TableStep (m, t) (TResize m') st' ->
    Instr limit bs (m, t) None st'.

(** A whole header block; a size update may not follow a field. *)
Inductive Block (limit : N) : bool -> list N -> N * list pair_t -> list (pair_t * bool) -> N * list pair_t -> Prop :=
| B_nil ok st : Block limit ok [] st [] st
| B_field ok bs rest st f st1 fs st2 :
    Instr limit bs st (Some f) st1 -> Block limit false rest st1 fs st2 ->
    Block limit ok (bs ++ rest) st (f :: fs) st2
| B_update bs rest st st1 fs st2 :
    Instr limit bs st None st1 -> Block limit true rest st1 fs st2 ->
    Block limit true (bs ++ rest) st fs st2.


(** ** Which fields must never enter a table (hpack.h documentation of HeaderField) *)
Definition SensitiveName (n : list N) : Prop :=
  n = str "authorization" \/ n = str "cookie" \/ n = str "proxy-authorization" \/
  exists r, n = str "set-cookie" ++ r.
Definition PseudoName (n : list N) : Prop := exists r, n = 58 :: r.

(** Total header list size of RFC 7540 6.5.2 / RFC 9113. *)
Definition list_size (ps : list pair_t) : N := table_size ps.
