(** Model of middleware/static_files.{h,cpp}. The file system is a concrete model (no concurrent change, no
    permissions); std::filesystem is modelled as libstdc++ implements it on POSIX. *)
From Verif Require Import Base UtilModel.
Open Scope N_scope.

(** * Paths and the file system *)

(** A name in a directory, or one of the special path elements: empty (trailing slash), dot, dot-dot. *)
Notation name := (list N) (only parsing).
Definition DOT : name := [46].
Definition DOTDOT : name := [46; 46].

(** What a name stands for. A link's target is absolute or relative to the directory holding the link. *)
Inductive node :=
| Dir
| File (content : list N) (mtime : Z)
| Special
| Link (absolute : bool) (target : list name).

(** A file system: the node at each absolute path without links, dots or empty names. The root is [] and a Dir. *)
Definition fsys : Type := list name -> option node.

Inductive lookup := Found (real : list name) | Missing | Failure.

(** POSIX path resolution (stat, realpath) of the elements [todo], from the real directory [cur]; at most
    [links] more symbolic links are followed (ELOOP: Failure). ENOENT and ENOTDIR: Missing. *)
Fixpoint resolve (fs : fsys) (links : nat) : list name -> list name -> lookup :=
  fix go (cur todo : list name) {struct todo} : lookup :=
    match todo with
    | [] => Found cur
    | x :: t =>
        if beq x [] || beq x DOT then go cur t
        else if beq x DOTDOT then go (removelast cur) t
        else match fs (cur ++ [x]) with
             | None => Missing
             | Some Dir => go (cur ++ [x]) t
             | Some (Link absolute target) =>
                 match links with
                 | O => Failure
                 | S links' => resolve fs links' (if absolute then [] else cur) (target ++ t)
                 end
             | Some _ => match t with [] => Found (cur ++ [x]) | _ => Missing end
             end
    end.

(** SYMLOOP: 40 on Linux *)
Definition MAX_LINKS : nat := 40.
Definition stat (fs : fsys) (p : list name) : lookup := resolve fs MAX_LINKS [] p.

(** lstat: the last element is not followed. [is_symlink(symlink_status(p))]; an error is not a symlink (372). *)
Definition is_symlink (fs : fsys) (p : list name) : bool :=
  match rev p with
  | [] => false
  | x :: r =>
      if beq x [] || beq x DOT || beq x DOTDOT then false
      else match stat fs (rev r) with
           | Found d => match fs (d ++ [x]) with Some (Link _ _) => true | _ => false end
           | _ => false
           end
  end.

(** std::filesystem::path from a string without leading slash: the elements, an empty one for a trailing slash.
    [split_slash] gives every piece between slashes; runs of slashes count once. *)
Fixpoint split_slash (s : list N) : list (list N) :=
  match s with
  | [] => [[]]
  | c :: r => if c =? 47 then [] :: split_slash r
              else match split_slash r with h :: t => (c :: h) :: t | [] => [[c]] end
  end.
Fixpoint drop_inner_empty (l : list (list N)) : list (list N) :=
  match l with
  | [] => []
  | [x] => [x]
  | x :: r => if beq x [] then drop_inner_empty r else x :: drop_inner_empty r
  end.
(** an empty string is an empty path *)
Definition elements (s : list N) : list name := match s with [] => [] | _ => drop_inner_empty (split_slash s) end.

(** lexically_normal of a relative path: [st] the elements kept (last first), [slash] a trailing separator. *)
Fixpoint normal_loop (l : list name) (st : list name) (slash : bool) : list name * bool :=
  match l with
  | [] => (st, slash)
  | x :: r =>
      if beq x [] || beq x DOT then normal_loop r st true
      else if beq x DOTDOT then
        match st with
        | y :: st' => if beq y DOTDOT then normal_loop r (DOTDOT :: st) false else normal_loop r st' true
        | [] => normal_loop r [DOTDOT] false
        end
      else normal_loop r (x :: st) false
  end.
(** [] stands for "." (and for the empty path, which is treated alike: static_files.cpp:124) *)
Definition lexically_normal (l : list name) : list name :=
  let '(st, slash) := normal_loop l [] false in
  match st with
  | [] => []
  | y :: _ => if slash && negb (beq y DOTDOT) then rev st ++ [[]] else rev st
  end.

(** lexically_normal of an absolute path: as above, but dot-dot at the root vanishes. *)
Fixpoint absolute_loop (l : list name) (st : list name) (slash : bool) : list name * bool :=
  match l with
  | [] => (st, slash)
  | x :: r =>
      if beq x [] || beq x DOT then absolute_loop r st true
      else if beq x DOTDOT then absolute_loop r (tl st) true
      else absolute_loop r (x :: st) false
  end.
Definition absolute_normal (l : list name) : list name :=
  let '(st, slash) := absolute_loop l [] false in
  match st with [] => [] | _ => if slash then rev st ++ [[]] else rev st end.

(** weakly_canonical(p, ec) as in libstdc++ (ops.cc): canonical if it exists, else the longest leading part that
    exists made canonical, the rest appended, and the result normalised. None: ec set. First the search for that
    leading part. *)
Fixpoint existing_prefix (fs : fsys) (done rest : list name) : option (list name * list name) :=
  match rest with
  | [] => Some (done, [])
  | x :: r => match stat fs (done ++ [x]) with
              | Found _ => existing_prefix fs (done ++ [x]) r
              | Missing => Some (done, rest)
              | Failure => None
              end
  end.
Definition weakly_canonical (fs : fsys) (p : list name) : option (list name) :=
  match stat fs p with
  | Found r => Some r
  | Failure => None
  | Missing =>
      match existing_prefix fs [] p with
      | None => None
      | Some (done, rest) =>
          match stat fs done with
          | Found r => Some (absolute_normal (r ++ rest))
          | _ => None
          end
      end
  end.

(** path::string() of an absolute path *)
Definition path_string (p : list name) : list N := match p with [] => [47] | _ => flat_map (fun x => 47 :: x) p end.

(** * static_files.cpp *)

Fixpoint drop_slashes (s : list N) : list N :=
  match s with [] => [] | c :: r => if c =? 47 then drop_slashes r else s end.

(** 92-152 sanitize_and_resolve_path; None: the empty path (refused). On POSIX a path without leading slash is
    never absolute (117). *)
Definition sanitize_and_resolve_path (fs : fsys) (base : list name) (path : list N) : option (list name) :=
  match decode_path_component path with
  | None => None
  | Some decoded =>
      if existsb (fun c => c =? 0) decoded then None
      else
        let relative_part := lexically_normal (elements (drop_slashes decoded)) in
        match weakly_canonical fs (base ++ relative_part) with
        | None => None
        | Some resolved =>
            let resolved_str := path_string resolved in
            let base_str := path_string base in
            if is_prefix base_str resolved_str
               && (match skipn (length base_str) resolved_str with [] => true | c :: _ => c =? 47 end)
            then Some resolved else None
        end
  end.

(** static_files.h:174-181 trim_optional_whitespace is trim_http_whitespace (UtilModel). *)

(** 62-64, 74-76: strip "W/" from a longer string *)
Definition strip_weak (t : list N) : list N :=
  match t with 87 :: 47 :: x :: r => x :: r | _ => t end.

(** 55-89 if_none_match_contains; the loop of 66-86 *)
Fixpoint inm_loop (fuel : nat) (list_ current : list N) : option bool :=
  match fuel with
  | O => None
  | S fuel' =>
      match list_ with
      | [] => Some false
      | _ =>
          let comma_pos := find_char 44 list_ in
          let candidate := trim_http_whitespace (match comma_pos with None => list_ | Some i => firstn i list_ end) in
          if beq candidate [42] then Some true
          else if beq (strip_weak candidate) current then Some true
          else match comma_pos with
               | None => Some false
               | Some i => inm_loop fuel' (skipn (i + 1) list_) current
               end
      end
  end.
Definition if_none_match_contains (if_none_match current_etag : list N) : option bool :=
  let l := trim_http_whitespace if_none_match in
  if beq l [42] then Some true
  else inm_loop (S (length l)) l (strip_weak (trim_http_whitespace current_etag)).

(** 203-220 parse_u64; LLONG_MAX *)
Definition LLONG_MAX : Z := 9223372036854775807.
Fixpoint parse_loop (value : Z) (s : list N) : option Z :=
  match s with
  | [] => Some value
  | c :: r =>
      if (schar c <? 48)%Z || (57 <? schar c)%Z then None
      else
        let digit := (schar c - 48)%Z in
        if (Z.quot (LLONG_MAX - digit) 10 <? value)%Z then None
        else parse_loop (value * 10 + digit) r
  end.
Definition parse_u64 (token : list N) : option Z := match token with [] => None | _ => parse_loop 0 token end.

(** 175-259 parse_byte_range: offset and length *)
Definition parse_byte_range (header : list N) (total : Z) : option (Z * Z) :=
  if (total <=? 0)%Z then None
  else if negb (is_prefix (str "bytes=") header) then None
  else
    let spec := skipn 6 header in
    match spec with
    | [] => None
    | _ =>
        if existsb (fun c => c =? 44) spec then None
        else match find_char 45 spec with
             | None => None
             | Some dash =>
                 let start_tok := firstn dash spec in
                 let end_tok := skipn (dash + 1) spec in
                 match start_tok, end_tok with
                 | _ :: _, _ :: _ =>
                     match parse_u64 start_tok, parse_u64 end_tok with
                     | Some start, Some end_ =>
                         if (end_ <? start)%Z || (total <=? start)%Z then None
                         else Some (start, Z.min end_ (total - 1) - start + 1)%Z
                     | _, _ => None
                     end
                 | _ :: _, [] =>
                     match parse_u64 start_tok with
                     | Some start => if (total <=? start)%Z then None else Some (start, total - start)%Z
                     | None => None
                     end
                 | [], _ =>
                     match parse_u64 end_tok with
                     | Some suffix =>
                         if (suffix <=? 0)%Z then None
                         else if (total <=? suffix)%Z then Some (0, total)%Z
                         else Some (total - suffix, suffix)%Z
                     | None => None
                     end
                 end
             end
    end.

(** * static_files.h *)

(** 159-171 path_prefix_matches *)
Definition path_prefix_matches (path prefix : list N) : bool :=
  match prefix with
  | [] => true
  | _ =>
      is_prefix prefix path &&
      (match skipn (length prefix) path with
       | [] => true
       | c :: _ => (last prefix 0 =? 47) || (c =? 47)
       end)
  end.

(** 27-66 StaticFilesOptions, with the members process reads except MIME types and Cache-Control. *)
Record options := mkOptions {
  root : list name; serve_index : bool; index_name : list N; prefix_to_strip : list N;
  etags : bool; last_modified : bool; ranges : bool; listing_on : bool; max_file_size : N; reject_symlinks : bool }.

(** The request: HEAD rather than GET, the path of its URI, If-None-Match and Range (empty if absent),
    If-Modified-Since as parsed (None if absent or unparseable). *)
Record request := mkRequest { head : bool; path : list N; inm : list N; ims : option Z; range : list N }.

(** The parts of the response process sets, but for Content-Type and Cache-Control. [content_range]: first, last
    and total, the first two absent in 416. [text]: the body is an explanation of the error. *)
Record response := mkResponse {
  status : N; body : list N; content_length : option Z; content_range : option (option (Z * Z) * Z);
  etag : option (list N); modified : option Z; accept_ranges : bool; text : bool }.

Inductive outcome := NextHandler | Answer (r : response).

(** 704-713 send_error_response; the headers set so far stay *)
Definition error (code : N) (et : option (list N)) (lm : option Z) (ar : bool) : outcome :=
  Answer (mkResponse code [] None None et lm ar true).

(** std::to_string of a file size or a time *)
Fixpoint digits (fuel : nat) (n : N) (acc : list N) : list N :=
  match fuel with
  | O => acc
  | S f => let acc' := (48 + n mod 10) :: acc in if n <? 10 then acc' else digits f (n / 10) acc'
  end.
Definition to_string (z : Z) : list N :=
  if (z <? 0)%Z then 45 :: digits (S (N.size_nat (Z.abs_N z))) (Z.abs_N z) []
  else digits (S (N.size_nat (Z.to_N z))) (Z.to_N z) [].

(** 494: the quoted size and modification time in seconds *)
Definition make_etag (size seconds : Z) : list N := [34] ++ to_string size ++ [45] ++ to_string seconds ++ [34].

(** 352-381 the walk along the requested path *)
Fixpoint walk (fs : fsys) (walker : list name) (segments : list name) : bool :=
  match segments with
  | [] => false
  | x :: r =>
      if beq x [] || beq x DOT then walk fs walker r
      else if is_symlink fs (walker ++ [x]) then true
      else walk fs (walker ++ [x]) r
  end.

(** 463-687: the regular file at [target] is served. [skew1], [skew2]: the difference of the two clocks as read at 491
    and 509. Times in nanoseconds. The file does not change meanwhile, so the checks at 546-570 and the reads succeed. *)
Definition serve_file (o : options) (q : request) (content : list N) (mtime skew1 skew2 : Z) : option outcome :=
  let size := Z.of_nat (length content) in
  let tag := make_etag size (Z.quot (mtime + skew1) 1000000000) in
  let et := if etags o then Some tag else None in
  let inm_hit := if etags o then match inm q with [] => Some false | l => if_none_match_contains l tag end else Some false in
  match inm_hit with
  | None => None
  | Some true => Some (Answer (mkResponse 304 [] None None et None false false))
  | Some false =>
      let modified_s := Z.quot (mtime + skew2) 1000000000 in
      let lm := if last_modified o then Some modified_s else None in
      let ims_hit := last_modified o && match ims q with Some t => (modified_s <=? Z.quot t 1000000000)%Z | None => false end in
      if ims_hit then Some (Answer (mkResponse 304 [] None None et lm false false))
      else if negb (max_file_size o =? 0) && (max_file_size o <? N.of_nat (length content))
      then Some (error 413 et lm (ranges o))
      else
        let full := Some (Answer (mkResponse 200 (if head q then [] else content) (Some size) None et lm (ranges o) false)) in
        if ranges o && negb (head q) then
          match range q with
          | [] => full
          | h =>
              match parse_byte_range h size with
              | Some (offset, len) =>
                  if negb (max_file_size o =? 0) && (Z.of_N (max_file_size o) <? len)%Z
                  then Some (error 413 et lm true)
                  else Some (Answer (mkResponse 206 (firstn (Z.to_nat len) (skipn (Z.to_nat offset) content)) (Some len)
                                       (Some (Some (offset, offset + len - 1), size))%Z et lm true false))
              | None => Some (Answer (mkResponse 416 [] None (Some (None, size)) None None true false))
              end
          end
        else full
  end.

(** 315-687 process, for GET and HEAD (other methods: 316-320, the next handler). [listing]: the page made by
    generate_directory_listing_html. None: never (a loop ran out of fuel). *)
Definition process (fs : fsys) (o : options) (listing : list name -> list N) (q : request) (skew1 skew2 : Z)
  : option (outcome * option (list name)) :=
  let forbidden code := Some (error code None None false, None) in
  if negb (path_prefix_matches (path q) (prefix_to_strip o)) then Some (NextHandler, None)
  else
    let effective := skipn (length (prefix_to_strip o)) (path q) in
    match sanitize_and_resolve_path fs (root o) effective with
    | None => forbidden 403
    | Some target =>
        let symlink_seen :=
          reject_symlinks o &&
          match decode_path_component effective with
          | Some d => walk fs (root o) (elements (drop_slashes d))
          | None => false
          end in
        if symlink_seen then forbidden 403
        else
          let serve target := match stat fs target with
                              | Found r =>
                                  match fs r with
                                  | Some (File content mtime) =>
                                      option_map (fun x => (x, Some target)) (serve_file o q content mtime skew1 skew2)
                                  | _ => forbidden 404
                                  end
                              | _ => forbidden 404
                              end in
          match stat fs target with
          | Failure => forbidden 500
          | Missing => forbidden 404
          | Found r =>
              let is_dir := match r with [] => true | _ => match fs r with Some Dir => true | _ => false end end in
              if is_dir then
                let index_path := target ++ elements (index_name o) in
                let index_ok :=
                  serve_index o && negb (beq (index_name o) []) &&
                  match stat fs index_path with
                  | Found i => match fs i with Some (File _ _) => true | _ => false end
                  | _ => false
                  end in
                if index_ok then serve index_path
                else if listing_on o
                then Some (Answer (mkResponse 200 (if head q then [] else listing target)
                                     (Some (Z.of_nat (length (listing target)))) None None None false false), None)
                else forbidden 403
              else serve target
          end
    end.
