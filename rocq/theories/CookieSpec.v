(** Independent vocabulary for the cookie properties. *)
From Verif Require Import Base UtilSpec.
Local Open Scope N_scope.

Definition Control (c : N) : Prop := c <= 31 \/ c = 127.

(** RFC 9110 token characters. *)
Definition TokenChar (c : N) : Prop :=
  (65 <= c <= 90) \/ (97 <= c <= 122) \/ (48 <= c <= 57) \/ In c (str "!#$%&'*+-.^_`|~").
Definition Token (s : list N) : Prop := s <> [] /\ Forall TokenChar s.

(** Cookie names are looked up without regard to ASCII case. *)
Definition SameName (a b : list N) : Prop := map lower a = map lower b.

(** A value sent as it is: no control character, no semicolon, first character neither blank nor a quote. *)
Definition Bare (v : list N) : Prop :=
  Forall (fun c => ~ Control c /\ c <> 59) v /\ (forall c r, v = c :: r -> c <> 32 /\ c <> 34 /\ c <> 39).

Definition escape (v : list N) : list N :=
  flat_map (fun c => if (c =? 34) || (c =? 92) then [92; c] else [c]) v.

(** Wire v w: w is a way to write the value v in a Cookie header. *)
Inductive Wire : list N -> list N -> Prop :=
| wire_bare v : Bare v -> Wire v v
| wire_quoted v : Forall (fun c => ~ Control c) v -> Wire v ([34] ++ escape v ++ [34]).

(** One cookie of a request header. *)
Record req_cookie := { rc_name : list N; rc_value : list N; rc_wire : list N }.

Definition GoodCookie (c : req_cookie) : Prop :=
  Token (rc_name c) /\ (forall r, rc_name c <> 36 :: r) /\ (length (rc_name c) <= 1024)%nat /\
  Wire (rc_value c) (rc_wire c) /\ N.of_nat (length (rc_value c)) <= 4096.

Definition pair_text (c : req_cookie) : list N := rc_name c ++ [61] ++ rc_wire c.

(** name=value; name=value; ... *)
Fixpoint cookie_header (l : list req_cookie) : list N :=
  match l with
  | [] => []
  | [c] => pair_text c
  | c :: r => pair_text c ++ [59; 32] ++ cookie_header r
  end.

(** v is the value of the first cookie of that name *)
Definition FirstValue (l : list req_cookie) (k v : list N) : Prop :=
  exists pre c post, l = pre ++ c :: post /\ SameName (rc_name c) k /\ rc_value c = v /\
    Forall (fun c' => ~ SameName (rc_name c') k) pre.

(** s without its trailing blanks *)
Definition RTrimmed (s t : list N) : Prop :=
  exists b, s = t ++ b /\ Forall Ows b /\ (forall c r, t = r ++ [c] -> ~ Ows c).

(** v without one pair of surrounding double quotes, if it has one *)
Definition Stripped (v v' : list N) : Prop :=
  v = [34] ++ v' ++ [34] \/ ((forall m, v <> [34] ++ m ++ [34]) /\ v' = v).
