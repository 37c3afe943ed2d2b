(** Properties C01-C07: utility functions. *)
From Verif Require Import Base UtilModel UtilSpec UtilProofs.
Local Open Scope N_scope.

(** C01 *)
Theorem uri_encode_decode_roundtrip : forall s, bytes_ok s ->
  decode_path_component (uri_encode_component s) = Some s.
Proof. exact uri_roundtrip. Qed.
Print Assumptions uri_encode_decode_roundtrip.

Theorem uri_encode_injective : forall a b, bytes_ok a -> bytes_ok b ->
  uri_encode_component a = uri_encode_component b -> a = b.
Proof.
  intros a b Ha Hb E. apply uri_roundtrip in Ha, Hb. rewrite E, Hb in Ha. congruence.
Qed.
Print Assumptions uri_encode_injective.

Example uri_encode_ex : bytes_ok (str "a%2F b") /\ uri_encode_component (str "a%2F b") = str "a%252F%20b".
Proof. split; [repeat constructor|reflexivity]. Qed.

(** C02 *)
Theorem uri_encode_output_safe : forall s, bytes_ok s -> PctSafe (uri_encode_component s).
Proof. exact uri_encode_safe. Qed.
Print Assumptions uri_encode_output_safe.

(** C03: decoding is total (no out-of-range subscript), computes exactly the specified decoding, which is
    unique, and never grows the text. *)
Theorem decode_path_exact : forall s out, decode_path_component s = Some out <-> PctDecodes s out.
Proof. exact decode_path_correct. Qed.
Print Assumptions decode_path_exact.

Theorem decode_path_defined : forall s, exists out,
  decode_path_component s = Some out /\ (length out <= length s)%nat.
Proof. exact decode_path_total. Qed.
Print Assumptions decode_path_defined.

Theorem pct_decoding_unique : forall s a b, PctDecodes s a -> PctDecodes s b -> a = b.
Proof. intros s a b Ha Hb. exact (PctDecodes_det s a Ha b Hb). Qed.

Example decode_path_ex :
  decode_path_component (str "a%2fb+c%4") = Some (str "a/b+c%4") /\
  decode_path_component (str "%25%34%31%") = Some (str "%41%").
Proof. split; vm_compute; reflexivity. Qed.

(** C04 *)
Theorem escape_html_lossless : forall s, HtmlUnescapes (escape_html s) s.
Proof. exact escape_html_unescapes. Qed.
Print Assumptions escape_html_lossless.

Theorem html_unescape_unique : forall t a b, HtmlUnescapes t a -> HtmlUnescapes t b -> a = b.
Proof. intros t a b Ha Hb. exact (HtmlUnescapes_det t a Ha b Hb). Qed.

Theorem escape_html_no_markup : forall s c, In c (escape_html s) -> c <> 34 /\ c <> 39 /\ c <> 60 /\ c <> 62.
Proof.
  intros s c. exact (proj1 (Forall_forall _ _) (unescapes_safe _ _ (escape_html_unescapes s)) c).
Qed.
Print Assumptions escape_html_no_markup.

Theorem escape_html_ampersands : forall s pre post, escape_html s = pre ++ 38 :: post ->
  exists e c post', In (e, c) html_entities /\ 38 :: post = e ++ post'.
Proof. intros s. exact (unescapes_amp _ _ (escape_html_unescapes s)). Qed.
Print Assumptions escape_html_ampersands.

Example escape_html_ex : escape_html (str "<a href='x'>&") = str "&lt;a href=&#39;x&#39;&gt;&amp;".
Proof. reflexivity. Qed.

(** C05 *)
Theorem iequals_is_case_folding : forall a b, bytes_ok a -> bytes_ok b ->
  (iequals a b = true <-> map lower a = map lower b).
Proof. exact iequals_spec. Qed.
Print Assumptions iequals_is_case_folding.

Theorem iequals_equivalence : forall a b c, bytes_ok a -> bytes_ok b -> bytes_ok c ->
  iequals a a = true /\ iequals a b = iequals b a /\
  (iequals a b = true -> iequals b c = true -> iequals a c = true).
Proof.
  intros a b c Ha Hb Hc. split; [now apply iequals_spec|]. split.
  - destruct (iequals a b) eqn:E1; destruct (iequals b a) eqn:E2; auto.
    + apply iequals_spec in E1; auto. symmetry in E1. apply iequals_spec in E1; auto. congruence.
    + apply iequals_spec in E2; auto. symmetry in E2. apply iequals_spec in E2; auto. congruence.
  - intros H1 H2. apply iequals_spec in H1, H2; auto. apply iequals_spec; auto. congruence.
Qed.
Print Assumptions iequals_equivalence.

Theorem ascii_to_lower_is_lower : forall c, c < 256 -> ascii_to_lower c = lower c.
Proof. exact ascii_to_lower_spec. Qed.

Example iequals_ex : iequals (str "Content-TYPE") (str "content-type") = true
  /\ iequals [64] [96] = false /\ iequals [91] [123] = false.
Proof. repeat split. Qed.

(** C06 *)
Theorem split_view_lossless : forall s d, exists pieces,
  split_view s d = Some pieces /\ pieces <> [] /\ join pieces [d] = s /\ Forall (fun p => ~ In d p) pieces.
Proof.
  intros s d. destruct (split_view_ok s d) as (ps & H1 & H2 & H3 & H4).
  exists ps. rewrite join_intercalate. auto.
Qed.
Print Assumptions split_view_lossless.

Theorem split_string_by_lossless : forall s b, b <> [] -> exists pieces,
  split_string_by s b = Some pieces /\ pieces <> [] /\ join pieces b = s
  /\ Forall (fun p => ~ contains b p) pieces.
Proof.
  intros s b Hb. destruct (split_string_by_ok s b Hb) as (ps & H1 & H2 & H3 & H4).
  exists ps. rewrite join_intercalate. auto.
Qed.
Print Assumptions split_string_by_lossless.

Theorem split_string_by_empty_boundary : forall s,
  split_string_by s [] = Some (match s with [] => [] | _ => [s] end).
Proof. reflexivity. Qed.

Theorem join_spec : forall l sep, join l sep = intercalate sep l.
Proof. exact join_intercalate. Qed.

Example split_ex :
  split_view (str ",a,,b") 44 = Some [[]; str "a"; []; str "b"] /\
  split_string_by (str "aaa") (str "aa") = Some [[]; str "a"].
Proof. split; reflexivity. Qed.

(** C07 *)
Theorem split_string_tokens : forall s p, exists ts, split_string s p = Some ts /\ Tokens p ts s.
Proof. exact split_string_ok. Qed.
Print Assumptions split_string_tokens.

Theorem tokens_unique : forall p ts us s, Tokens p ts s -> Tokens p us s -> ts = us.
Proof. intros p ts us s H1 H2. exact (Tokens_det p ts s H1 us H2). Qed.

Theorem split_and_trim_exact : forall s d, exists items,
  split_and_trim_header_list s d = Some items /\ HeaderItems d s items.
Proof. exact split_and_trim_items. Qed.
Print Assumptions split_and_trim_exact.

Theorem trim_exact : forall s t, trim_http_whitespace s = t <-> Trimmed s t.
Proof.
  intros s t. split; [intros <-; apply trim_spec|]. intros H. exact (Trimmed_det _ _ _ (trim_spec s) H).
Qed.
Print Assumptions trim_exact.

Example split_tokens_ex :
  split_string_set (str "key=value;;other=val;") (str ";=") = Some [str "key"; str "value"; str "other"; str "val"] /\
  split_and_trim_header_list (str " gzip ,, br;q=1 , ") 44 = Some [str "gzip"; str "br;q=1"].
Proof. split; reflexivity. Qed.
