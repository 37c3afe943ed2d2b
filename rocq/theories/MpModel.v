(** Model of multipart.{h,cpp} (MultipartParser, parse_boundary, serialisation) and of the multipart part of
    body.cpp (MultipartReader, Body::as<Multipart>, Body::operator=<Multipart>).
    Positions are nats; every read of the buffer, the boundary and the lookbehind vector is checked: a read or
    write outside gives [Oob], so that its absence is a theorem. *)
From Verif Require Import Base UtilModel Http1Model CookieModel RecvModel HdrModel.
Local Open Scope nat_scope.

(** multipart.h:52-64 *)
Definition MAX_BOUNDARY_LENGTH : nat := 70.
Definition MAX_HEADER_NAME_LENGTH : N := 1024.
Definition MAX_HEADER_VALUE_LENGTH : N := 8192.
Definition MAX_PARTS_COUNT : N := 1000.
Definition MAX_TOTAL_SIZE : N := 104857600.

(** multipart.h:135-150 *)
Inductive pst := MStart | MStartBoundary | MFieldStart | MField | MValueStart | MValue | MValueAlmost | MHeadersAlmost
  | MDataStart | MData | MEnd | MError.
(** what the callbacks are called with *)
Inductive mev := EBegin | EField (b : list N) | EValue (b : list N) | EHeaderEnd | EHeadersEnd | EData (b : list N) | EPartEnd | EEnd.
(** multipart.h:163-175; the marks are None when UNMARKED; [m_evs]: the callbacks made so far *)
Record mp := mkM { m_state : pst; m_part : bool; m_last : bool; m_index : nat; m_field : option nat; m_value : option nat;
  m_data : option nat; m_look : list N; m_evs : list mev }.
Definition m_set (s : mp) (st : pst) (ix : nat) : mp := mkM st (m_part s) (m_last s) ix (m_field s) (m_value s) (m_data s) (m_look s) (m_evs s).
Definition m_flags (s : mp) (p l : bool) : mp := mkM (m_state s) p l (m_index s) (m_field s) (m_value s) (m_data s) (m_look s) (m_evs s).
Definition m_setf (s : mp) (v : option nat) : mp := mkM (m_state s) (m_part s) (m_last s) (m_index s) v (m_value s) (m_data s) (m_look s) (m_evs s).
Definition m_setv (s : mp) (v : option nat) : mp := mkM (m_state s) (m_part s) (m_last s) (m_index s) (m_field s) v (m_data s) (m_look s) (m_evs s).
Definition m_setd (s : mp) (v : option nat) : mp := mkM (m_state s) (m_part s) (m_last s) (m_index s) (m_field s) (m_value s) v (m_look s) (m_evs s).
Definition m_setl (s : mp) (v : list N) : mp := mkM (m_state s) (m_part s) (m_last s) (m_index s) (m_field s) (m_value s) (m_data s) v (m_evs s).
Definition m_emit (s : mp) (e : mev) : mp := mkM (m_state s) (m_part s) (m_last s) (m_index s) (m_field s) (m_value s) (m_data s) (m_look s) (m_evs s ++ [e]).

(** multipart.h:248-253 isHeaderFieldCharacter *)
Definition field_char (c : N) : bool := is_header_name_char c.
(** bytes from..to of a buffer *)
Definition sub_ (buf : list N) (from to : nat) : list N := firstn (to - from) (skipn from buf).
(** multipart.cpp:96-119 dataCallback with clear = true up to position i, or clear = false up to the buffer's end *)
Definition cut (s : mp) (mk : list N -> mev) (mark : option nat) (buf : list N) (upto : nat) (empty : bool) : mp :=
  match mark with
  | None => s
  | Some m => if (m =? upto) && negb empty then s else m_emit s (mk (sub_ buf m upto))
  end.

(** the range [mark, upto) a callback is given is one: otherwise its length wraps around (multipart.cpp:84-119) *)
Definition range_ok (mark : option nat) (upto : nat) : bool := match mark with None => true | Some m => m <=? upto end.

(** outcome of one turn of the loop: go on at a position; return from feed with (error) or without saving the
    local state; throw; access outside *)
Inductive turn := Go (s : mp) (i : nat) | Leave (s : mp) | Throws (s : mp) | Oob.

(** multipart.cpp:128-134 the skipping loop *)
Fixpoint skip_ (fuel : nat) (b buf : list N) (i : nat) : option nat :=
  match fuel with
  | O => None
  | S f =>
      if i + length b <=? length buf then
        match nth_error buf (i + (length b - 1)) with
        | None => None
        | Some c => if existsb (N.eqb c) b then Some i else skip_ f b buf (i + length b)
        end
      else Some i
  end.
Definition write_ (l : list N) (i : nat) (c : N) : list N := firstn i l ++ c :: skipn (S i) l.
(** multipart.cpp:199-222 the tail of processPartData: prev is prevIndex *)
Definition part_tail (s : mp) (prev : nat) (i : nat) (c : N) : turn :=
  if 0 <? m_index s then
    if length (m_look s) <=? m_index s - 1 then Throws (m_set s MError (m_index s))
    else Go (m_setl s (write_ (m_look s) (m_index s - 1) c)) (S i)
  else if 0 <? prev then
    if length (m_look s) <? prev then Oob
    else Go (m_setd (m_emit s (EData (sub_ (m_look s) 0 prev))) (Some i)) i   (* i--, undone by the loop's i++ *)
  else Go s (S i).
(** multipart.cpp:121-223 processPartData; b is the whole boundary, CR LF and dashes included *)
Definition part_data (b buf : list N) (s : mp) (i : nat) : turn :=
  let prev := m_index s in
  match (if m_index s =? 0 then skip_ (S (length buf)) b buf i else Some i) with
  | None => Oob
  | Some i =>
      if (m_index s =? 0) && (i =? length buf) then Go s i   (* the loop is over *)
      else
        match nth_error buf i with
        | None => Oob
        | Some c =>
            let bs := length b in
            let ix := m_index s in
            if ix <? bs then
              match nth_error b ix with
              | None => Oob
              | Some x =>
                  if (x =? c)%N then
                    if (ix =? 0) && negb (range_ok (m_data s) i) then Oob else
                    let s := if ix =? 0 then m_setd (cut s EData (m_data s) buf i false) None else s in
                    part_tail (m_set s (m_state s) (S ix)) prev i c
                  else part_tail (m_set s (m_state s) 0) prev i c
              end
            else if ix =? bs then
              if (c =? 13)%N then part_tail (m_flags (m_set s (m_state s) (S ix)) true (m_last s)) prev i c
              else if (c =? 45)%N then part_tail (m_flags (m_set s (m_state s) (S ix)) (m_part s) true) prev i c
              else part_tail (m_set s (m_state s) 0) prev i c
            else if ix - 1 =? bs then
              if m_part s then
                if (c =? 10)%N then Go (m_emit (m_emit (m_flags (m_set s MFieldStart 0) false (m_last s)) EPartEnd) EBegin) (S i)
                else part_tail (m_set s (m_state s) 0) prev i c
              else if m_last s then
                if (c =? 45)%N then part_tail (m_emit (m_emit (m_set s MEnd (m_index s)) EPartEnd) EEnd) prev i c
                else part_tail (m_set s (m_state s) 0) prev i c
              else part_tail (m_set s (m_state s) 0) prev i c
            else if ix - 2 =? bs then
              if (c =? 13)%N then part_tail (m_set s (m_state s) (S ix)) prev i c
              else part_tail (m_set s (m_state s) 0) prev i c
            else if ix - bs =? 3 then
              if (c =? 10)%N then Go (m_emit (m_emit (m_set s MEnd 0) EPartEnd) EEnd) (S i)
              else part_tail (m_set s (m_state s) 0) prev i c
            else part_tail s prev i c
        end
  end.

(** multipart.cpp:293-317 the first boundary *)
Definition first_boundary (b : list N) (s : mp) (i : nat) (c : N) : turn :=
  let ix := m_index s in
  if ix =? length b - 2 then
    if (c =? 13)%N then Go (m_set s MStartBoundary (S ix)) (S i) else Leave (m_set s MError ix)
  else if ix - 1 =? length b - 2 then
    if (c =? 10)%N then Go (m_emit (m_set s MFieldStart 0) EBegin) (S i) else Leave (m_set s MError ix)
  else
    match nth_error b (ix + 2) with
    | None => Oob
    | Some x => if (c =? x)%N then Go (m_set s MStartBoundary (S ix)) (S i) else Leave (m_set s MError ix)
    end.
(** multipart.cpp:322-345 *)
Definition header_field (buf : list N) (s : mp) (i : nat) (c : N) : turn :=
  if (c =? 13)%N then Go (m_setf (m_set s MHeadersAlmost (m_index s)) None) (S i)
  else
    let s := m_set s MField (S (m_index s)) in
    if (c =? 58)%N then
      if m_index s =? 1 then Leave (m_set s MError (m_index s))
      else if negb (range_ok (m_field s) i) then Oob
      else Go (m_setf (m_set (cut s EField (m_field s) buf i false) MValueStart (m_index s)) None) (S i)
    else if field_char c then Go s (S i) else Leave (m_set s MError (m_index s)).
(** multipart.cpp:353-359 *)
Definition header_value (buf : list N) (s : mp) (i : nat) (c : N) : turn :=
  if (c =? 13)%N
  then if negb (range_ok (m_value s) i) then Oob else Go (m_set (m_emit (m_setv (cut s EValue (m_value s) buf i true) None) EHeaderEnd) MValueAlmost (m_index s)) (S i)
  else Go s (S i).
(** multipart.cpp:285-385 one turn of the loop *)
Definition turn_ (b buf : list N) (s : mp) (i : nat) : turn :=
  match nth_error buf i with
  | None => Oob
  | Some c =>
      match m_state s with
      | MError => Leave s
      | MStart => first_boundary b (m_set s MStartBoundary 0) i c
      | MStartBoundary => first_boundary b s i c
      | MFieldStart => header_field buf (m_setf (m_set s MField 0) (Some i)) i c
      | MField => header_field buf s i c
      | MValueStart => if (c =? 32)%N then Go s (S i) else header_value buf (m_setv (m_set s MValue (m_index s)) (Some i)) i c
      | MValue => header_value buf s i c
      | MValueAlmost => if (c =? 10)%N then Go (m_set s MFieldStart (m_index s)) (S i) else Leave (m_set s MError (m_index s))
      | MHeadersAlmost => if (c =? 10)%N then Go (m_set (m_emit s EHeadersEnd) MDataStart (m_index s)) (S i) else Leave (m_set s MError (m_index s))
      | MDataStart => part_data b buf (m_setd (m_set s MData (m_index s)) (Some i)) i
      | MData => part_data b buf s i
      | MEnd => Leave s
      end
  end.

(** result of feed: the object afterwards, and its return value where it returns *)
Inductive fed := Fed (s : mp) | FThrow (s : mp) | FOob | FLoop.
(** the locals l_state, l_index, l_flags are saved at the end of the loop only; an early return leaves the
    members as they were, except that setError has set state (multipart.cpp:259-263, 388-396) *)
Definition unsaved (s0 s : mp) : mp :=
  mkM (match m_state s with MError => MError | _ => m_state s0 end) (m_part s0) (m_last s0) (m_index s0)
      (m_field s) (m_value s) (m_data s) (m_look s) (m_evs s).
Definition at_end (s : mp) (buf : list N) : mp :=
  let go (s : mp) (mk : list N -> mev) (mark : option nat) := cut s mk mark buf (length buf) false in
  let z (o : option nat) := match o with None => None | Some _ => Some 0 end in
  let s := m_setf (go s EField (m_field s)) (z (m_field s)) in
  let s := m_setv (go s EValue (m_value s)) (z (m_value s)) in
  m_setd (go s EData (m_data s)) (z (m_data s)).
Fixpoint feed_loop (fuel : nat) (b buf : list N) (s0 s : mp) (i : nat) : fed :=
  match fuel with
  | O => FLoop
  | S f =>
      if i <? length buf then
        match turn_ b buf s i with
        | Go s' i' => feed_loop f b buf s0 s' i'
        | Leave s' => Fed (unsaved s0 s')
        | Throws s' => FThrow (unsaved s0 s')
        | Oob => FOob
        end
      else if range_ok (m_field s) (length buf) && range_ok (m_value s) (length buf) && range_ok (m_data s) (length buf)
      then Fed (at_end s buf) else FOob
  end.
(** multipart.cpp:270-397 feed; two turns per byte are enough (MpSafe.feed_safe) *)
Definition feed (b : list N) (s : mp) (buf : list N) : fed :=
  match m_state s, buf with
  | MError, _ | _, [] => Fed s
  | _, _ => feed_loop (S (2 * length buf)) b buf s s 0
  end.
(** multipart.cpp:225-266 reset, setBoundary; the boundary as stored *)
Definition stored_boundary (bd : list N) : list N := [13; 10; 45; 45]%N ++ bd.
Definition no_boundary : mp := mkM MError false false 0 None None None [] [].
Definition set_boundary (bd : list N) : mp :=
  if (length bd =? 0) || (MAX_BOUNDARY_LENGTH <? length bd) then no_boundary
  else if existsb (fun c => (c <? 32) || (c =? 127))%N bd then no_boundary
  else mkM MStart false false 0 None None None (repeat 0%N (length (stored_boundary bd) + 8)) [].

(** body.cpp:112-277 MultipartReader with the callbacks of Body::as<Multipart> (body.cpp:752-765): the parts built *)
Record part := mkP { p_headers : headers_map; p_body : list N }.
Record rd := mkR { r_headers : headers_map; r_name : list N; r_value : list N; r_count : N; r_total : N; r_parts : list part }.
Definition append_body (ps : list part) (d : list N) : list part :=
  match rev ps with [] => ps | p :: r => rev r ++ [mkP (p_headers p) (p_body p ++ d)] end.
(** body.cpp:158-277; None is the exception of a limit *)
Definition on_event (r : rd) (e : mev) : option rd :=
  match e with
  | EBegin => let n := (r_count r + 1)%N in if (MAX_PARTS_COUNT <? n)%N then None else Some (mkR [] [] [] n (r_total r) (r_parts r))
  | EField d => if (MAX_HEADER_NAME_LENGTH <? len d)%N then None else Some (mkR (r_headers r) d (r_value r) (r_count r) (r_total r) (r_parts r))
  | EValue d => if (MAX_HEADER_VALUE_LENGTH <? len d)%N then None else Some (mkR (r_headers r) (r_name r) d (r_count r) (r_total r) (r_parts r))
  | EHeaderEnd => Some (mkR (add_value (r_name r) (r_value r) (r_headers r)) [] [] (r_count r) (r_total r) (r_parts r))
  | EHeadersEnd =>
      let h := r_headers r in
      (* body.cpp:755-756: set_content_type writes the first value back as the only one *)
      let h := match find_header (str "Content-Type") h with
               | Some vs => set_value (str "Content-Type") (match vs with v :: _ => v | [] => [] end) h
               | None => h
               end in
      Some (mkR [] [] [] (r_count r) (r_total r) (r_parts r ++ [mkP h []]))
  | EData d =>
      let t := (r_total r + len d)%N in
      if (MAX_TOTAL_SIZE <? t)%N then None else Some (mkR (r_headers r) (r_name r) (r_value r) (r_count r) t (append_body (r_parts r) d))
  | EPartEnd | EEnd => Some r
  end.
Fixpoint on_events (r : rd) (es : list mev) : option rd :=
  match es with [] => Some r | e :: l => match on_event r e with Some r' => on_events r' l | None => None end end.

(** body.cpp:736-772 Body::as<Multipart>: None when it throws.  find_first_of(endl): the first CR or LF.  (An
    exception from a callback leaves feed in the middle; as everything is discarded then, running the
    callbacks over all events afterwards gives the same result.) *)
Fixpoint line_end (s : list N) : option nat :=
  match s with [] => None | c :: r => if ((c =? 13) || (c =? 10))%N then Some 0 else option_map S (line_end r) end.
Definition as_multipart (body : list N) : option (list N * list part) :=
  match line_end body with
  | None => None
  | Some pos =>
      if pos <=? 2 then None
      else
        let bd := firstn (pos - 2) (skipn 2 body) in
        match feed (stored_boundary bd) (set_boundary bd) body with
        | Fed s =>
            match on_events (mkR [] [] [] 0 0 []) (m_evs s) with
            | None => None
            | Some r => match m_state s with MError => None | _ => Some (bd, r_parts r) end
            end
        | _ => None
        end
  end.

(** multipart.cpp:18-28 *)
Definition boundary_char (c : N) : bool :=
  ((97 <=? c) && (c <=? 122) || (65 <=? c) && (c <=? 90) || (48 <=? c) && (c <=? 57) || existsb (N.eqb c) (str "'()+_,-./:=? "))%N.
Definition valid_boundary (bd : list N) : bool :=
  negb (length bd =? 0) && (length bd <=? MAX_BOUNDARY_LENGTH) && negb (last bd 0%N =? 32)%N && forallb boundary_char bd.
(** multipart.cpp:423-446 *)
Definition mp_name_ok (n : list N) : bool := negb (length n =? 0) && (len n <=? MAX_HEADER_NAME_LENGTH)%N && forallb is_header_name_char n.
Definition mp_value_ok (v : list N) : bool :=
  (len v <=? MAX_HEADER_VALUE_LENGTH)%N && forallb (fun c => (c =? 9) || ((32 <=? c) && negb (c =? 127)))%N v.
Definition part_ok (p : part) : bool := forallb (fun e => mp_name_ok (fst e) && forallb mp_value_ok (snd e)) (p_headers p).
(** multipart.cpp:448-466, 487-502 pipe::put<Multipart>: None when it throws *)
Definition put_part (bd : list N) (p : part) : list N :=
  str "--" ++ bd ++ endl ++
  flat_map (fun e => flat_map (fun v => fst e ++ str ": " ++ v ++ endl) (snd e)) (p_headers p) ++
  endl ++ p_body p ++ endl.
Definition put_multipart (bd : list N) (ps : list part) : option (list N) :=
  if valid_boundary bd && forallb part_ok ps then Some (flat_map (put_part bd) ps ++ str "--" ++ bd ++ str "--") else None.
(** multipart.h:515-523, 569-578 *)
Definition part_size (p : part) : nat :=
  length (p_body p) + 3 + 1 + list_sum (map (fun e => list_sum (map (fun v => length (fst e) + length v + 3 + 1) (snd e))) (p_headers p)).
Definition content_length_of (bd : list N) (ps : list part) : nat :=
  list_sum (map (fun p => length bd + part_size p + 4) ps) + (length bd + 4).

(** multipart.cpp:63-82 parse_boundary *)
Inductive bresult := BNone | BThrow | BOk (bd : list N).
Definition parse_boundary (ct : list N) : bresult :=
  if negb (iequals (trim_http_whitespace (before 59 ct)) (str "multipart/form-data")) then BNone
  else match parse_header_attributes ct with
       | None => BThrow
       | Some attrs =>
           match cookie_get attrs (str "boundary") with
           | None | Some [] => BNone
           | Some bd => if valid_boundary bd then BOk bd else BThrow
           end
       end.
