(** Independent specifications for the utility functions. *)
From Verif Require Import Base.
Local Open Scope N_scope.

(** c is a hexadecimal digit with value v (RFC 5234 HEXDIG, both cases). *)
Inductive HexVal : N -> N -> Prop :=
| hex_dec d : d < 10 -> HexVal (48 + d) d           (* 0-9 *)
| hex_up d : d < 6 -> HexVal (65 + d) (10 + d)      (* A-F *)
| hex_lo d : d < 6 -> HexVal (97 + d) (10 + d).     (* a-f *)

(** s starts with two hexadecimal digits. *)
Definition starts_hex2 (s : list N) : Prop :=
  exists h l r hv lv, s = h :: l :: r /\ HexVal h hv /\ HexVal l lv.

(** Left-to-right percent decoding (37 is the percent sign). *)
Inductive PctDecodes : list N -> list N -> Prop :=
| pd_nil : PctDecodes [] []
| pd_esc h l hv lv rest out :
    HexVal h hv -> HexVal l lv -> PctDecodes rest out ->
    PctDecodes (37 :: h :: l :: rest) (16 * hv + lv :: out)
| pd_lit c rest out :
    ~ (c = 37 /\ starts_hex2 rest) -> PctDecodes rest out -> PctDecodes (c :: rest) (c :: out).

(** RFC 3986 unreserved = ALPHA / DIGIT / - . _ ~ *)
Definition Unreserved (c : N) : Prop :=
  (65 <= c <= 90) \/ (97 <= c <= 122) \/ (48 <= c <= 57) \/ c = 45 \/ c = 46 \/ c = 95 \/ c = 126.

Definition UpperHex (c : N) : Prop := (48 <= c <= 57) \/ (65 <= c <= 70).

Inductive PctSafe : list N -> Prop :=
| ps_nil : PctSafe []
| ps_unres c r : Unreserved c -> PctSafe r -> PctSafe (c :: r)
| ps_esc h l r : UpperHex h -> UpperHex l -> PctSafe r -> PctSafe (37 :: h :: l :: r).

(** The five entities and the character each one stands for. *)
Definition html_entities : list (list N * N) :=
  [ (str "&amp;", 38); ([38;113;117;111;116;59], 34); (str "&#39;", 39); (str "&lt;", 60); (str "&gt;", 62) ].

Definition is_markup (c : N) : Prop := c = 34 \/ c = 38 \/ c = 39 \/ c = 60 \/ c = 62.

(** Reading a text whose entities are expanded. *)
Inductive HtmlUnescapes : list N -> list N -> Prop :=
| hu_nil : HtmlUnescapes [] []
| hu_ent e c t s : In (e, c) html_entities -> HtmlUnescapes t s -> HtmlUnescapes (e ++ t) (c :: s)
| hu_lit c t s : ~ is_markup c -> HtmlUnescapes t s -> HtmlUnescapes (c :: t) (c :: s).

(** ASCII lower-casing of one byte. *)
Definition lower (c : N) : N := if (65 <=? c) && (c <=? 90) then c + 32 else c.

(** Pieces joined by a separator. *)
Fixpoint intercalate (sep : list N) (l : list (list N)) : list N :=
  match l with
  | [] => []
  | [x] => x
  | x :: r => x ++ sep ++ intercalate sep r
  end.

(** s contains p as a contiguous substring. *)
Definition contains (p s : list N) : Prop := exists a b, s = a ++ p ++ b.

(** Tokens p ts s: ts are, in order, the maximal non-empty runs of non-delimiters of s. *)
Inductive Tokens (p : N -> bool) : list (list N) -> list N -> Prop :=
| tok_nil : Tokens p [] []
| tok_delim d ts s : p d = true -> Tokens p ts s -> Tokens p ts (d :: s)
| tok_last t : t <> [] -> Forall (fun c => p c = false) t -> Tokens p [t] t
| tok_more t d ts s : t <> [] -> Forall (fun c => p c = false) t -> p d = true -> Tokens p ts s ->
    Tokens p (t :: ts) (t ++ d :: s).

(** SP / HTAB *)
Definition Ows (c : N) : Prop := c = 32 \/ c = 9.

(** t is s without its surrounding optional white space. *)
Definition Trimmed (s t : list N) : Prop :=
  exists a b, s = a ++ t ++ b /\ Forall Ows a /\ Forall Ows b
    /\ (forall c r, t = c :: r -> ~ Ows c) /\ (forall c r, t = r ++ [c] -> ~ Ows c).

(** The list of items of a delimited header value: every piece between delimiters, trimmed, empties
    dropped. *)
Definition HeaderItems (d : N) (s : list N) (items : list (list N)) : Prop :=
  exists pieces trimmed,
    s = intercalate [d] pieces /\ pieces <> [] /\ Forall (fun p => ~ In d p) pieces
    /\ Forall2 Trimmed pieces trimmed
    /\ items = filter (fun t => match t with [] => false | _ => true end) trimmed.
