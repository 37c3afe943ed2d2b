(** Model of validation/sanitizer.{h,cpp}. *)
From Verif Require Import Base UtilModel ValJson.
Local Open Scope N_scope.

(** sanitizer.cpp:24-27 *)
Definition ascii_is_space (c : N) : bool := (c =? 32) || (c =? 9) || (c =? 10) || (c =? 13) || (c =? 12) || (c =? 11).
(** sanitizer.cpp:29-32 *)
Definition ascii_is_alnum (c : N) : bool := ((65 <=? c) && (c <=? 90)) || ((97 <=? c) && (c <=? 122)) || ((48 <=? c) && (c <=? 57)).
(** sanitizer.cpp:34-37 *)
Definition ascii_to_upper (c : N) : N := if (97 <=? c) && (c <=? 122) then c - 32 else c.

Fixpoint drop_space (s : list N) : list N := match s with [] => [] | c :: r => if ascii_is_space c then drop_space r else s end.
(** sanitizer.cpp:136-149 *)
Definition trim (s : list N) : list N := match drop_space s with [] => [] | t => rev (drop_space (rev t)) end.
(** sanitizer.cpp:151-158; utility.h ascii_to_lower is UtilModel.ascii_to_lower *)
Definition to_lower_case (s : list N) : list N := map ascii_to_lower s.
(** sanitizer.cpp:160-167 *)
Definition to_upper_case (s : list N) : list N := map ascii_to_upper s.
(** sanitizer.cpp:174-195, one octet *)
Definition escape_char (c : N) : list N :=
  if c =? 38 then str "&amp;" else if c =? 60 then str "&lt;" else if c =? 62 then str "&gt;" else if c =? 34 then str "&quot;" else if c =? 39 then str "&#39;" else [c].
(** sanitizer.cpp:169-198 *)
Definition escape_html (s : list N) : list N := flat_map escape_char s.

(** sanitizer.cpp:213; TAG_NAME and IN_TAG do the same *)
Inductive state := Text | TagStart | InTag | Comment | CommentEnd.
(** 252-256 the octets after the closing quote *)
Fixpoint after_quote (q : N) (s : list N) : list N := match s with [] => [] | c :: r => if c =? q then r else after_quote q r end.
(** sanitizer.cpp:217-282, the octets still to read and the output; the fuel bounds the octets *)
Fixpoint strip (fuel : nat) (st : state) (s : list N) : list N :=
  match fuel, s with
  | S f, c :: r =>
      match st with
      | Text => if c =? 60 then strip f TagStart r else c :: strip f Text r
      | TagStart =>
          if c =? 33 then match r with
                          | 45 :: 45 :: r' => strip f Comment r'
                          | _ => strip f InTag r
                          end
          else if (c =? 47) || ascii_is_alnum c then strip f InTag r
          else 60 :: c :: strip f Text r
      | InTag => if (c =? 34) || (c =? 39) then strip f InTag (after_quote c r) else if c =? 62 then strip f Text r else strip f InTag r
      | Comment => match r with
                   | 45 :: r' => if c =? 45 then strip f CommentEnd r' else strip f Comment r
                   | _ => strip f Comment r
                   end
      | CommentEnd => if c =? 62 then strip f Text r else if negb (c =? 45) then strip f Comment r else strip f CommentEnd r
      end
  | _, _ => []
  end.
(** sanitizer.cpp:200-307 *)
Definition strip_html_tags (s : list N) : list N := strip (length s) Text s.
(** sanitizer.cpp:309-321 *)
Definition alphanumeric_only (s : list N) : list N := filter ascii_is_alnum s.
(** sanitizer.cpp:332-343 *)
Fixpoint squeeze (last_was_space : bool) (s : list N) : list N :=
  match s with
  | [] => []
  | c :: r => if ascii_is_space c then if last_was_space then squeeze true r else 32 :: squeeze true r else c :: squeeze false r
  end.
(** sanitizer.cpp:323-348 *)
Definition normalize_whitespace (s : list N) : list N := match trim s with [] => [] | t => squeeze false t end.
(** sanitizer.cpp:350-380, the two passes *)
Definition escape_wildcards (s : list N) : list N := flat_map (fun c => if (c =? 37) || (c =? 95) then [92; c] else [c]) s.
Definition double_quotes (s : list N) : list N := flat_map (fun c => if c =? 39 then [39; 39] else [c]) s.
Definition escape_sql_like (s : list N) : list N := double_quotes (escape_wildcards s).

(** ** Paths *)
Definition push (part : list N) (parts : list (list N)) : list (list N) := match part with [] => parts | _ => parts ++ [part] end.
(** sanitizer.cpp:48-75 split_path_for_sanitizer, the loop *)
Fixpoint split_loop (s current : list N) (in_bracket : bool) (parts : list (list N)) : list (list N) :=
  match s with
  | [] => push current parts
  | c :: r =>
      if (c =? 46) && negb in_bracket then split_loop r [] in_bracket (push current parts)
      else if c =? 91 then split_loop r [] true (push current parts)
      else if (c =? 93) && in_bracket then split_loop r [] false (push current parts)
      else split_loop r (current ++ [c]) in_bracket parts
  end.
Definition split_path (s : list N) : list (list N) := split_loop s [] false [].

Section Traverse.
(** qb::to_number_prefix<size_t>, of the qb library *)
Variable number : list N -> option N.
(** what the functions of a rule make of a string; None: one of them throws *)
Variable f : list N -> option (list N).

Fixpoint map_opt {A B} (g : A -> option B) (l : list A) : option (list B) :=
  match l with [] => Some [] | x :: r => match g x with None => None | Some y => match map_opt g r with None => None | Some r' => Some (y :: r') end end end.
(** Changing the first item that meets [p]. *)
Fixpoint update {A} (p : A -> bool) (g : A -> option A) (l : list A) : option (list A) :=
  match l with
  | [] => Some []
  | x :: r => if p x then match g x with None => None | Some y => Some (y :: r) end
              else match update p g r with None => None | Some r' => Some (x :: r') end
  end.
Fixpoint update_at {A} (i : nat) (g : A -> option A) (l : list A) {struct l} : option (list A) :=
  match l with
  | [] => Some []
  | x :: r => match i with
              | O => match g x with None => None | Some y => Some (y :: r) end
              | S i => match update_at i g r with None => None | Some r' => Some (x :: r') end
              end
  end.
(** sanitizer.cpp:91-121 traverse_and_apply with 77-89 apply_sanitizers_to_node *)
Fixpoint traverse_and_apply (segments : list (list N)) (node : json) : option json :=
  match segments with
  | [] => match node with JStr s => match f s with Some t => Some (JStr t) | None => None end | _ => Some node end
  | segment :: rest =>
      match node with
      | JObj members =>
          match update (fun e => beq (fst e) segment) (fun e => match traverse_and_apply rest (snd e) with Some y => Some (fst e, y) | None => None end) members with
          | Some m => Some (JObj m) | None => None
          end
      | JArr items =>
          if beq segment (str "*") then match map_opt (traverse_and_apply rest) items with Some l => Some (JArr l) | None => None end
          else match number segment with
               | Some i => if i <? N.of_nat (length items) then match update_at (N.to_nat i) (traverse_and_apply rest) items with Some l => Some (JArr l) | None => None end
                           else Some node
               | None => Some node
               end
      | _ => Some node
      end
  end.
End Traverse.

(** the functions of a rule, one after the other *)
Definition chain (fs : list (list N -> option (list N))) (s : list N) : option (list N) :=
  fold_left (fun a f => match a with Some t => f t | None => None end) fs (Some s).
(** sanitizer.cpp:123-133 sanitize: the rules in the order of the unordered map *)
Fixpoint sanitize (number : list N -> option N) (rules : list (list N * list (list N -> option (list N)))) (j : json) : option json :=
  match rules with
  | [] => Some j
  | (path, fs) :: rest =>
      match fs, split_path path with
      | [], _ | _, [] => sanitize number rest j
      | _, segments => match traverse_and_apply number (chain fs) segments j with Some j' => sanitize number rest j' | None => None end
      end
  end.
