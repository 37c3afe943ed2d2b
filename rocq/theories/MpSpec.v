(** Specification vocabulary for multipart bodies. *)
From Verif Require Import Base UtilModel Http1Model UtilSpec CookieSpec H2FieldSpec Http1Spec RecvSpec MpModel.
Local Open Scope nat_scope.

(** What the callbacks deliver, fragment borders forgotten. *)
Inductive tok := KBegin | KName (c : N) | KValue (c : N) | KHeaderEnd | KHeadersEnd | KData (c : N) | KPartEnd | KEnd.
Definition flat1 (e : mev) : list tok :=
  match e with
  | EBegin => [KBegin] | EField b => map KName b | EValue b => map KValue b | EHeaderEnd => [KHeaderEnd]
  | EHeadersEnd => [KHeadersEnd] | EData b => map KData b | EPartEnd => [KPartEnd] | EEnd => [KEnd]
  end.
Definition flat (es : list mev) : list tok := flat_map flat1 es.

(** feed called once per piece *)
Fixpoint feeds (b : list N) (s : mp) (pieces : list (list N)) : option mp :=
  match pieces with
  | [] => Some s
  | x :: r => match feed b s x with Fed s' => feeds b s' r | _ => None end
  end.

(** a boundary the parser takes: 1 to 70 octets, no controls *)
Definition BoundaryText (bd : list N) : Prop := 1 <= length bd <= 70 /\ Forall (fun c => 32 <= c /\ c <> 127)%N bd.
Definition Contains (w s : list N) : Prop := exists a b, s = a ++ w ++ b.
Definition crlf : list N := [13; 10]%N.
Definition delimiter (bd : list N) : list N := crlf ++ str "--" ++ bd.

(** the text of a multipart body (RFC 2046, without preamble and epilogue): header lines have a name of token
    characters, a colon, any number of spaces and a value without CR that does not begin with a space *)
Definition MLine (f : list N * list N) (s : list N) : Prop :=
  fst f <> [] /\ Forall TokenChar (fst f) /\ ~ In 13%N (snd f) /\ hd 0%N (snd f) <> 32%N /\
  exists n, s = fst f ++ [58%N] ++ repeat 32%N n ++ snd f ++ crlf.
Inductive MLines : list (list N * list N) -> list N -> Prop :=
| lines_nil : MLines [] []
| lines_cons f fs a b : MLine f a -> MLines fs b -> MLines (f :: fs) (a ++ b).
Definition dpart : Type := list (list N * list N) * list N.
(** what follows a delimiter's boundary *)
Inductive Parts (bd : list N) : list dpart -> list N -> Prop :=
| parts_one fs body h : MLines fs h -> ~ Contains (delimiter bd) body ->
    Parts bd [(fs, body)] (crlf ++ h ++ crlf ++ body ++ delimiter bd ++ str "--")
| parts_more fs body h ps r : MLines fs h -> ~ Contains (delimiter bd) body -> Parts bd ps r ->
    Parts bd ((fs, body) :: ps) (crlf ++ h ++ crlf ++ body ++ delimiter bd ++ r).
Definition Document (bd : list N) (ps : list dpart) (s : list N) : Prop := exists r, s = str "--" ++ bd ++ r /\ Parts bd ps r.

Definition field_tokens (f : list N * list N) : list tok := map KName (fst f) ++ map KValue (snd f) ++ [KHeaderEnd].
Definition part_tokens (p : dpart) : list tok := [KBegin] ++ flat_map field_tokens (fst p) ++ [KHeadersEnd] ++ map KData (snd p) ++ [KPartEnd].
Definition document_tokens (ps : list dpart) : list tok := flat_map part_tokens ps ++ [KEnd].

(** RFC 2046 5.1.1: bchars, 1 to 70 of them, not ending in a space *)
Definition Bchar (c : N) : Prop :=
  (97 <= c <= 122 \/ 65 <= c <= 90 \/ 48 <= c <= 57)%N \/ In c (str "'()+_,-./:=? ").
Definition ValidBoundary (bd : list N) : Prop := 1 <= length bd <= 70 /\ Forall Bchar bd /\ last bd 0%N <> 32%N.
