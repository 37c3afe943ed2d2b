(** What is said about reCAPTCHA verification, in terms of documents and messages. *)
From Verif Require Import Base Http1Spec ValJson FormSpec.
From Coq Require Import SpecFloat.
Local Open Scope N_scope.

(** The member of an object. *)
Definition Member (m : list (list N * json)) (k : list N) (j : json) : Prop := lookup k m = Some j.
Definition Number (j : json) : Prop := (exists z, j = JInt z) \/ (exists n, j = JUint n) \/ (exists d, j = JReal d).
(** How much a score counts: not at all, if there is one, or it is required. *)
Inductive scoring := NoScore | IfGiven | Needed.
(** The service vouches for the token: it says success, and the score is not below the threshold. *)
Definition Vouched (parse : list N -> option json) (as_float : json -> spec_float) (k : scoring) (threshold : spec_float) (status : N) (body : list N) : Prop :=
  status = 200 /\ exists m, parse body = Some (JObj m) /\ Member m (str "success") (JBool true) /\
  match k with
  | NoScore => True
  | IfGiven => forall j, Member m (str "score") j -> Number j -> SFltb (as_float j) threshold = false
  | Needed => exists j, Member m (str "score") j /\ Number j /\ SFltb (as_float j) threshold = false
  end.
(** The token a body holds: the text under that name of a JSON object, otherwise the first value of that field of a form. *)
Definition JsonToken (parse : list N -> option json) (body field t : list N) : Prop := exists m, parse body = Some (JObj m) /\ Member m field (JStr t).
Definition FormToken (decode : list N -> list N) (body field t : list N) : Prop :=
  exists ps l r, Cut body ps /\ Denotes decode ps l /\ submitted field l = t :: r.
