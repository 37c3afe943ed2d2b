(** Specification for headers.{h,cpp}, independent of the model. *)
From Verif Require Import Base UtilSpec CookieSpec H2FieldSpec Http1Spec.
Local Open Scope N_scope.

(** ** Attribute lists: name, name=value, name=quoted, separated by ';' (59) or ',' (44) *)
Definition solid (s : list N) : list N := filter (fun c => negb ((c =? 32) || (c =? 9))) s.
(** a name, possibly with blanks in it, which are ignored *)
Definition NameText (s : list N) : Prop :=
  solid s <> [] /\ N.of_nat (length (solid s)) <= 1024 /\
  Forall (fun c => Ows c \/ (~ Control c /\ c <> 61 /\ c <> 59 /\ c <> 44)) s.
Definition Plain (c : N) : Prop := ~ Control c \/ c = 9.

(** the text between two quotes q and the value it stands for *)
Inductive Quoted (q : N) : list N -> list N -> Prop :=
| qu_nil : Quoted q [] []
| qu_lit c t v : c <> q -> c <> 92 -> Plain c -> Quoted q t v -> Quoted q (c :: t) (c :: v)
| qu_esc c t v : Plain c -> Quoted q t v -> Quoted q (92 :: c :: t) (c :: v).

(** the text of one attribute, between separators *)
Inductive Attr : list N -> list field -> Prop :=
| at_blank s : Forall Ows s -> Attr s []
| at_flag n : NameText n -> Attr n [(solid n, [])]
| at_plain n w v : NameText n -> Trimmed w v -> Forall (fun c => c <> 59 /\ c <> 44 /\ Plain c) w ->
    (forall c r, v = c :: r -> c <> 39 /\ c <> 34) -> N.of_nat (length v) <= 8192 ->
    Attr (n ++ [61] ++ w) [(solid n, v)]
| at_quoted n a q t b v : NameText n -> Forall Ows a -> q = 34 \/ q = 39 -> Quoted q t v ->
    N.of_nat (length v) <= 8192 -> Forall Ows b ->
    Attr (n ++ [61] ++ a ++ [q] ++ t ++ [q] ++ b) [(solid n, v)].
Inductive Attrs : list N -> list field -> Prop :=
| ats_one s fs : Attr s fs -> Attrs s fs
| ats_more s fs d t gs : Attr s fs -> d = 59 \/ d = 44 -> Attrs t gs -> Attrs (s ++ d :: t) (fs ++ gs).
Definition AttributeList (s : list N) (fs : list field) : Prop := N.of_nat (length s) <= 65536 /\ Attrs s fs.

(** the first field of that name *)
Definition First (fs : list field) (k v : list N) : Prop :=
  exists a n b, fs = a ++ (n, v) :: b /\ SameName n k /\ Forall (fun f => ~ SameName (fst f) k) a.

(** ** Content-Type: s is [media [; params]] *)
Definition Cut (d : N) (s a : list N) (rest : option (list N)) : Prop :=
  ~ In d a /\ s = a ++ match rest with Some r => d :: r | None => [] end.
Definition Charset (params : option (list N)) (cs : list N) : Prop :=
  (exists p fs, params = Some p /\ AttributeList p fs /\ First fs (str "charset") cs /\ cs <> []) \/
  ((forall p fs v, params = Some p -> AttributeList p fs -> First fs (str "charset") v -> v = []) /\ cs = str "utf-8").
Definition ContentTypeIs (s media cs : list N) : Prop :=
  exists a m params, Cut 59 s a params /\ Trimmed a m /\
    (m = [] /\ media = str "application/octet-stream" /\ cs = str "utf-8" \/
     m <> [] /\ media = m /\ Charset params cs).

(** ** The header container, as a list of fields in order *)
Inductive hop := Add (n v : list N) | Set_ (n v : list N) | SetType (v : list N) | Remove (n : list N).
Definition other (n : list N) (f : field) : bool := negb (beq (map lower (fst f)) (map lower n)).
Definition replay1 (fs : list field) (o : hop) : list field :=
  match o with
  | Add n v => fs ++ [(n, v)]
  | Set_ n v => filter (other n) fs ++ [(n, v)]
  | SetType v => filter (other (str "Content-Type")) fs ++ [(str "Content-Type", v)]
  | Remove n => filter (other n) fs
  end.
Definition replay (ops : list hop) : list field := fold_left replay1 ops [].
Definition hop_ok (o : hop) : Prop :=
  match o with Add n v => bytes_ok n /\ bytes_ok v | Set_ n v => bytes_ok n /\ bytes_ok v
             | SetType v => bytes_ok v | Remove n => bytes_ok n end.

(** ** qvalues in thousandths *)
Inductive QValue : list N -> N -> Prop :=
| qv_one k : (k <= 3)%nat -> QValue ([49] ++ (if (k =? 0)%nat then [] else 46 :: repeat 48 k)) 1000
| qv_zero : QValue [48] 0
| qv_1 a : a < 10 -> QValue [48; 46; 48 + a] (100 * a)
| qv_2 a b : a < 10 -> b < 10 -> QValue [48; 46; 48 + a; 48 + b] (100 * a + 10 * b)
| qv_3 a b c : a < 10 -> b < 10 -> c < 10 -> QValue [48; 46; 48 + a; 48 + b; 48 + c] (100 * a + 10 * b + c).

(** one parameter is q=... *)
Definition QParam (p text : list N) : Prop :=
  exists u k v, Trimmed p u /\ Cut 61 u k (Some v) /\ (exists k', Trimmed k k' /\ SameName k' (str "q")) /\ Trimmed v text.
Definition Weight (params : option (list N)) (q : N) : Prop :=
  (exists p a x b t, params = Some p /\ p = intercalate [59] (a ++ x :: b) /\ Forall (fun y => ~ In 59 y) (a ++ x :: b) /\
     Forall (fun y => forall t', ~ QParam y t') a /\ QParam x t /\ (QValue t q \/ q = 0 /\ forall q', ~ QValue t q')) \/
  (q = 1000 /\ forall p a x b t, params = Some p -> p = intercalate [59] (a ++ x :: b) -> Forall (fun y => ~ In 59 y) (a ++ x :: b) ->
     ~ QParam x t).
(** one element of Accept-Encoding: its name and weight *)
Definition Element (s name : list N) (q : N) : Prop :=
  exists u a params, Trimmed s u /\ Cut 59 u a params /\ Trimmed a name /\ Weight params q.
Definition Accepts (s : list N) (es : list (list N * N)) : Prop :=
  exists ts, Tokens (fun c => c =? 44) ts s /\ Forall2 (fun t e => Element t (fst e) (snd e)) ts es.
