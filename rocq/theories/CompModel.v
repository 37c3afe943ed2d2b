(** Model of Body::compress/uncompress (body.cpp:396-567) and of middleware/compression.h. The compression library is a
    parameter: any streaming provider. *)
From Verif Require Import Base UtilModel StaticModel Http1Model RecvModel HdrModel.
Local Open Scope N_scope.

(** base.h:60 *)
Definition MAX_BODY_SIZE : N := 104857600.

(** qb::compression::compress_provider / decompress_provider: a state; one call takes the rest of the input and the room left
    for output and gives the new state, the octets written, the number of octets read and the done flag; None is an exception
    (std::runtime_error). *)
Record provider := mkP { p_state : Type; p_init : p_state; p_call : p_state -> list N -> N -> option (p_state * list N * N * bool) }.

(** How a call on a body ends: with a body (and the size of the buffer that was allocated), with an exception
    ([runtime]: it is a std::runtime_error), or not within the given number of rounds. *)
Inductive ending := Returned (body : list N) (buffer : N) | Threw (runtime : bool) (buffer : N) | Spinning.

Definition len (s : list N) : N := N.of_nat (length s).

(** body.cpp:466-482 the loop of compress; [n] is body.size() *)
Fixpoint compress_loop (fuel : nat) (P : provider) (st : p_state P) (n : N) (input out : list N) (buffer : N) : ending :=
  match input with
  | [] => Returned out buffer
  | _ =>
    match fuel with
    | O => Spinning
    | S f =>
      let buffer := buffer + (n + 32) in
      match p_call P st input (buffer - len out) with
      | None => Threw true buffer
      | Some (st, o, used, done) =>
          let out := out ++ o in
          if done then Returned out buffer
          else compress_loop f P st n (skipn (N.to_nat used) input) out buffer
      end
    end
  end.
(** body.cpp:544-566 the loop of uncompress; std::length_error is not a std::runtime_error *)
Fixpoint uncompress_loop (fuel : nat) (P : provider) (st : p_state P) (n : N) (input out : list N) (buffer : N) : ending :=
  match input with
  | [] => Returned out buffer
  | _ =>
    match fuel with
    | O => Spinning
    | S f =>
      let buffer := buffer + n * 2 in
      match p_call P st input (buffer - len out) with
      | None => Threw true buffer
      | Some (st, o, used, done) =>
          let out := out ++ o in
          if MAX_BODY_SIZE <? len out then Threw false buffer
          else if done then Returned out buffer
          else uncompress_loop f P st n (skipn (N.to_nat used) input) out buffer
      end
    end
  end.

Definition words (delims : list N) (s : list N) : list (list N) := match split_string_set s delims with Some l => l | None => [] end.
Definition nothing (t : list N) : bool := iequals t (str "chunked") || iequals t (str "identity").
(** what a factory gives: a provider, none needed, or an exception *)
Inductive made := Made (P : provider) | NoneNeeded | Refused.
(** body.cpp:413-421 *)
Fixpoint first_compressor (make : list N -> option provider) (tokens : list (list N)) : option provider :=
  match tokens with
  | [] => None
  | t :: r => if nothing t then first_compressor make r
              else match make t with Some P => Some P | None => first_compressor make r end
  end.
(** body.cpp:408-445 get_compressor_from_header; [make] is builtin::make_compressor *)
Definition get_compressor_from_header (make : list N -> option provider) (encoding : list N) : made :=
  let tokens := words (str ",; " ++ [9]) encoding in
  match first_compressor make tokens with
  | Some P => Made P
  | None => if existsb (fun t => iequals t (str "identity")) tokens then NoneNeeded
            else if forallb nothing tokens then NoneNeeded
            else Refused
  end.
(** body.cpp:502-519; [i] counts from 1 *)
Fixpoint decompressor_loop (make : list N -> option provider) (i total : nat) (tokens : list (list N)) (found : option provider) : option (option provider) :=
  match tokens with
  | [] => Some found
  | t :: r =>
      match make t with
      | Some P => match found with
                  | Some _ => None
                  | None => decompressor_loop make (S i) total r (Some P)
                  end
      | None => if iequals (str "chunked") t && negb (i =? total)%nat then None
                else decompressor_loop make (S i) total r found
      end
  end.
(** body.cpp:497-525 get_decompressor_from_header *)
Definition get_decompressor_from_header (make : list N -> option provider) (encoding : list N) : option provider :=
  let tokens := words (str ", " ++ [9]) encoding in
  match decompressor_loop make 1 (length tokens) tokens None with Some (Some P) => Some P | _ => None end.

(** body.cpp:459-483 compress: the new body; the size returned is its size *)
Definition compress (fuel : nat) (make : list N -> option provider) (encoding body : list N) : ending :=
  match body, encoding with
  | [], _ => Returned body 0
  | _, [] => Returned body 0
  | _, _ =>
      match get_compressor_from_header make encoding with
      | Made P => compress_loop fuel P (p_init P) (len body) body [] 0
      | NoneNeeded => Returned body 0
      | Refused => Threw true 0
      end
  end.
(** body.cpp:539-566 uncompress *)
Definition uncompress (fuel : nat) (make : list N -> option provider) (encoding body : list N) : ending :=
  match body, encoding with
  | [], _ => Returned body 0
  | _, [] => Returned body 0
  | _, _ =>
      match get_decompressor_from_header make encoding with
      | Some P => uncompress_loop fuel P (p_init P) (len body) body [] 0
      | None => Threw true 0
      end
  end.

(** compression.h:48-64 CompressionOptions *)
Record options := mkO { o_compress : bool; o_decompress : bool; o_min : N; o_preferred : list (list N) }.
Definition options_new : options := mkO true true 1024 [str "gzip"; str "deflate"].

(** compression.h:414-430 parse_q_value: the pieces after the first *)
Definition parse_q_value (token : list N) : N :=
  match words (str ";") token with [] => 1000 | _ :: params => q_of_params params end.
(** compression.h:432-443 the elements of Accept-Encoding *)
Definition accepted_encodings (header : list N) : list (list N * N) :=
  flat_map (fun token =>
    let name := trim_http_whitespace token in
    let name := match after 59 name with Some _ => trim_http_whitespace (before 59 name) | None => name end in
    match name with [] => [] | _ => [(name, parse_q_value token)] end) (words (str ",") header).
(** compression.h:448-461 the inner loop: the candidate's weight, None for -1 *)
Fixpoint candidate_q (x : list N) (wildcard : option N) (es : list (list N * N)) : option N :=
  match es with
  | [] => wildcard
  | (name, q) :: r => if iequals name x then Some q
                      else candidate_q x (if beq name (str "*") then Some q else wildcard) r
  end.
(** compression.h:445-467 the outer loop *)
Fixpoint best (prefs : list (list N)) (es : list (list N * N)) (best_encoding : list N) (best_q : N) : list N :=
  match prefs with
  | [] => if 0 <? best_q then best_encoding else []
  | x :: r => match candidate_q x None es with
              | Some q => if best_q <? q then best r es x q else best r es best_encoding best_q
              | None => best r es best_encoding best_q
              end
  end.
(** compression.h:366-468 select_best_encoding *)
Definition select_best_encoding (accept : list N) (o : options) : list N :=
  match accept with [] => [] | _ => best (o_preferred o) (accepted_encodings accept) [] 0 end.

(** compression.h:478-504 *)
Definition compressed_mime_types : list (list N) := map str
  ["image/jpeg"; "image/png"; "image/gif"; "image/webp"; "image/jp2"; "image/jxr"; "audio/mpeg"; "audio/ogg"; "audio/aac"; "audio/opus"; "audio/flac";
   "video/mp4"; "video/webm"; "video/ogg"; "video/quicktime"; "application/zip"; "application/gzip"; "application/x-rar-compressed";
   "application/x-7z-compressed"; "application/x-bzip2"; "application/pdf"; "application/vnd.oasis.opendocument.text";
   "application/vnd.openxmlformats-officedocument.wordprocessingml.document"]%string.
(** compression.h:476-522 is_precompressed_content_type *)
Definition is_precompressed_content_type (ct : list N) : bool :=
  match trim_http_whitespace (before 59 ct) with
  | [] => false
  | t => existsb (fun c => iequals t c) compressed_mime_types
  end.

Record response := mkR { r_status : N; r_headers : hdrs; r_body : list N }.
Record request := mkQ { q_headers : hdrs; q_body : list N }.

(** compression.h:318-359 compress_response_body, inside the try of compression.h:217-232 (an exception leaves what was done so far:
    the body is only replaced at the end of Body::compress, so nothing). [accept] is the request's Accept-Encoding. *)
Definition compress_response_body (fuel : nat) (make : list N -> option provider) (o : options) (accept : list N) (r : response) : response :=
  match r_body r with
  | [] => r
  | body =>
    if (len body <? o_min o) || has_header (str "Content-Encoding") (h_map (r_headers r)) || is_precompressed_content_type (fst (h_ct (r_headers r))) then r else
    match select_best_encoding accept o with
    | [] => r
    | enc =>
      if len body <? o_min o then r else
      match compress fuel make enc body with
      | Returned out _ =>
          if (0 <? len out) && (len out <? len body) then
            let h := set_header (r_headers r) (str "Content-Encoding") enc in
            let h := add_header h (str "Vary") (str "Accept-Encoding") in
            let h := set_header h (str "Content-Length") (to_string (Z.of_N (len out))) in
            mkR (r_status r) h out
          else if 0 <? len out then
            mkR (r_status r) (remove_header (remove_header (r_headers r) (str "Content-Encoding")) (str "Content-Length")) body
          else mkR (r_status r) (r_headers r) out
      | _ => r
      end
    end
  end.

Inductive verdict := Continue | Complete.
(** compression.h:191-236 process, request side: the request the next task sees, the response if the chain stops here, whether the
    compression hook is installed, and the verdict. The texts of the error bodies are not modelled. None: not within the fuel. *)
Definition process (fuel : nat) (make : list N -> option provider) (o : options) (q : request) (r : response)
  : option (request * response * bool * verdict) :=
  let enc := header_at (q_headers q) (str "Content-Encoding") 0 [] in
  if o_decompress o && (has_header (str "Content-Encoding") (h_map (q_headers q)) && match enc with [] => false | _ => true end) then
    match q_body q with
    | [] => Some (q, r, o_compress o, Continue)
    | _ =>
      match uncompress fuel make enc (q_body q) with
      | Returned out _ =>
          let h := remove_header (q_headers q) (str "Content-Encoding") in
          let h := if has_header (str "Content-Length") (h_map h) then set_header h (str "Content-Length") (to_string (Z.of_N (len out))) else h in
          Some (mkQ h out, r, o_compress o, Continue)
      | Threw runtime _ =>
          Some (q, mkR (if runtime then 400 else 500) (set_header (r_headers r) (str "Content-Type") (str "text/plain; charset=utf-8")) (str "error"), false, Complete)
      | Spinning => None
      end
    end
  else Some (q, r, o_compress o, Continue).
