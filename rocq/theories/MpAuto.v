(** A reader that takes one octet at a time: what the parser does, without buffers, marks and lookbehind.
    Internal to the proofs. *)
From Verif Require Import Base UtilModel Http1Model UtilSpec CookieSpec H2FieldSpec Http1Spec Http1Proofs RecvSpec MpModel MpSpec.
Local Open Scope nat_scope.

Record au := mkAu { u_state : pst; u_part : bool; u_last : bool; u_n : nat; u_pend : list N }.
Inductive ares := ANext (a : au) (ts : list tok) | AErr | AColonless | AOver.
Definition u_st (a : au) (s : pst) : au := mkAu s (u_part a) (u_last a) (u_n a) (u_pend a).
Definition a_first (b : list N) (a : au) (n : nat) (c : N) : ares :=
  if n =? length b - 2 then if (c =? 13)%N then ANext (mkAu MStartBoundary (u_part a) (u_last a) (S n) []) [] else AErr
  else if n - 1 =? length b - 2 then if (c =? 10)%N then ANext (mkAu MFieldStart (u_part a) (u_last a) 0 []) [KBegin] else AErr
  else match nth_error b (n + 2) with
       | None => AOver
       | Some x => if (c =? x)%N then ANext (mkAu MStartBoundary (u_part a) (u_last a) (S n) []) [] else AErr
       end.
Definition a_field (a : au) (n : nat) (c : N) : ares :=
  if (c =? 13)%N then if n =? 0 then ANext (mkAu MHeadersAlmost (u_part a) (u_last a) 0 []) [] else AColonless
  else if (c =? 58)%N then if n =? 0 then AErr else ANext (mkAu MValueStart (u_part a) (u_last a) 0 []) []
  else if field_char c then ANext (mkAu MField (u_part a) (u_last a) (S n) []) [KName c] else AErr.
Definition a_value (a : au) (c : N) : ares :=
  if (c =? 13)%N then ANext (mkAu MValueAlmost (u_part a) (u_last a) 0 []) [KHeaderEnd]
  else ANext (mkAu MValue (u_part a) (u_last a) 0 []) [KValue c].
Definition d_hold (a : au) (p : list N) : au := mkAu MData (u_part a) (u_last a) 0 p.
Definition d_false (b : list N) (a : au) (c : N) : ares :=
  if (c =? hd 0 b)%N then ANext (d_hold a [c]) (map KData (u_pend a)) else ANext (d_hold a []) (map KData (u_pend a ++ [c])).
Definition a_data (b : list N) (a : au) (c : N) : ares :=
  let ix := length (u_pend a) in
  if ix <? length b then if (nth ix b 0 =? c)%N then ANext (d_hold a (u_pend a ++ [c])) [] else d_false b a c
  else if ix =? length b then
    if (c =? 13)%N then ANext (mkAu MData true (u_last a) 0 (u_pend a ++ [c])) []
    else if (c =? 45)%N then ANext (mkAu MData (u_part a) true 0 (u_pend a ++ [c])) []
    else d_false b a c
  else if u_part a then if (c =? 10)%N then ANext (mkAu MFieldStart false (u_last a) 0 []) [KPartEnd; KBegin] else d_false b a c
  else if u_last a then if (c =? 45)%N then ANext (mkAu MEnd (u_part a) (u_last a) 0 []) [KPartEnd; KEnd] else d_false b a c
  else d_false b a c.
Definition a_step (b : list N) (a : au) (c : N) : ares :=
  match u_state a with
  | MStart => a_first b a 0 c
  | MStartBoundary => a_first b a (u_n a) c
  | MFieldStart => a_field a 0 c
  | MField => a_field a (u_n a) c
  | MValueStart => if (c =? 32)%N then ANext a [] else a_value a c
  | MValue => a_value a c
  | MValueAlmost => if (c =? 10)%N then ANext (mkAu MFieldStart (u_part a) (u_last a) 0 []) [] else AErr
  | MHeadersAlmost => if (c =? 10)%N then ANext (mkAu MDataStart (u_part a) (u_last a) 0 []) [KHeadersEnd] else AErr
  | MDataStart | MData => a_data b a c
  | MEnd | MError => AOver
  end.
Fixpoint a_run (b : list N) (a : au) (ts : list tok) (s : list N) : ares :=
  match s with
  | [] => ANext a ts
  | c :: r => match a_step b a c with ANext a' t => a_run b a' (ts ++ t) r | o => o end
  end.
Definition a_init : au := mkAu MStart false false 0 [].

Lemma a_run_app b x y : forall a ts, a_run b a ts (x ++ y) = match a_run b a ts x with ANext a' ts' => a_run b a' ts' y | o => o end.
Proof. induction x as [|c x IH]; intros a ts; [reflexivity|]. cbn [app a_run]. destruct (a_step b a c); auto. Qed.
Lemma a_run_toks b s : forall a ts, a_run b a ts s = match a_run b a [] s with ANext a' t => ANext a' (ts ++ t) | o => o end.
Proof.
  induction s as [|c s IH]; intros a ts; cbn [a_run]; [now rewrite app_nil_r|]. destruct (a_step b a c) as [a' t| | |]; auto.
  rewrite (IH a' (ts ++ t)), (IH a' ([] ++ t)). destruct (a_run b a' [] s); auto. now rewrite <- app_assoc.
Qed.
