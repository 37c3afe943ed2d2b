(** Specification of the HTTP/1.1 receiving side.  The only things taken from the model are its interface
    types: the machine standing for llhttp ([machine], its data [dat] and [stop]s, [meta]) and the delivered
    message [msg]. *)
From Verif Require Import Base UtilSpec CookieSpec H2FieldSpec Http1Spec RecvModel.
Local Open Scope N_scope.

Definition size (s : list N) : N := N.of_nat (length s).

(** reads of at most 16 MiB *)
Definition SmallReads (slices : list (list N)) : Prop := Forall (fun s => size s <= 16777216) slices.

(** the octets of a datum *)
Definition text (d : dat) : list N :=
  match d with DUrl s => s | DField s => s | DValue s => s | DBody s => s | DCut => [] end.
Definition urls (ds : list dat) : list N := flat_map (fun d => match d with DUrl s => s | _ => [] end) ds.
Definition body_of (ds : list dat) : list N := flat_map (fun d => match d with DBody s => s | _ => [] end) ds.
Definition about_fields (ds : list dat) : list dat :=
  filter (fun d => match d with DField _ => true | DValue _ => true | _ => false end) ds.

(** llhttp copies octets: at most one octet of body per octet of input; only octets in its data *)
Definition OneOctet (M : machine) : Prop := forall l c, size (body_of (snd (fst (m_step M l c)))) <= 1.
Definition Octets (M : machine) : Prop := forall l c, Forall (fun d => bytes_ok (text d)) (snd (fst (m_step M l c))).

(** Runs M l s ds st l': from l the machine reads exactly s, reports ds, and stops with st at its last octet. *)
Inductive Runs (M : machine) : mL M -> list N -> list dat -> stop -> mL M -> Prop :=
| runs_last l c ds st l' : m_step M l c = (l', ds, st) -> st <> Go -> Runs M l [c] ds st l'
| runs_more l c ds l1 s es st l' : m_step M l c = (l1, ds, Go) -> Runs M l1 s es st l' -> Runs M l (c :: s) (ds ++ es) st l'.

(** The data report these fields: each name in one or more non-empty-in-total pieces, then its value in one or
    more pieces. *)
Inductive Reported : list dat -> list field -> Prop :=
| rep_none : Reported [] []
| rep_field ks vs ds fs : ks <> [] -> vs <> [] -> concat ks <> [] -> Reported ds fs ->
    Reported (map DField ks ++ map DValue vs ++ ds) ((concat ks, concat vs) :: fs).

(** After the header section no further field is reported (no trailers). *)
Definition NoTrailers (M : machine) : Prop :=
  exists T : mL M -> Prop,
    (forall l c l' ds mt, m_step M l c = (l', ds, Heads mt) -> T l') /\
    (forall l l' st, T l -> m_wake M l = (l', st) -> T l') /\
    (forall l c l' ds st, T l -> m_step M l c = (l', ds, st) -> T l' /\ about_fields ds = []).

(** Limits on what is delivered; the library may add one empty Content-Type field. *)
Definition WithinLimits (m : msg) : Prop :=
  size (m_url m) <= 8192 /\
  Forall (fun f => size (fst f) <= 1024 /\ size (snd f) <= 8192) (fields_of (m_headers m)) /\
  (N.of_nat (length (fields_of (m_headers m))) <= 100 \/
   N.of_nat (length (fields_of (m_headers m))) <= 101 /\ values_of (str "Content-Type") (fields_of (m_headers m)) = [[]]) /\
  size (m_body m) <= 104857600.

(** The header section is within the limits. *)
Definition HeadWithin (ds : list dat) (fs : list field) : Prop :=
  size (urls ds) <= 8192 /\ N.of_nat (length fs) <= 100 /\
  Forall (fun f => size (fst f) <= 1024 /\ size (snd f) <= 8192) fs.

(** The number of octets of body when there is no transfer coding (RFC 9112 6.3, the response having a length). *)
Definition declared (is_request : bool) (mt : meta) : N :=
  if is_request then (if mt_length mt =? 18446744073709551615 then 0 else mt_length mt)
  else if ((100 <=? mt_status mt) && (mt_status mt <? 200)) || (mt_status mt =? 204) || (mt_status mt =? 304) then 0
  else mt_length mt.

(** Exactly one token, chunked, in all Transfer-Encoding values together. *)
Definition OnlyChunked (fs : list field) : Prop :=
  exists tss t, Forall2 (HeaderItems 44) (values_of (str "Transfer-Encoding") fs) tss /\ concat tss = [t] /\
                map lower t = str "chunked".
