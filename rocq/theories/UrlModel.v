(** UrlModel: the text of the URL params.RealURL gives, with the functions of package net/url
    (Go 1.17 and later) it goes through.

    Simplifications:
    - targets that begin with a slash are parsed here; what others give (a star, a full URL) is quantified;
    - no user in a URL; a fragment is not printed (a server's URL has none). *)
From Coq Require Import List Ascii String Bool Arith ZArith Lia.
Import ListNotations.
From Verif Require Import GoStr GoNum GoEnc StaticModel ParamsModel CookieModel Props_ParamsExact.

(** url.go unescape(s, encodePath) *)
Fixpoint path_unescape (s : bytes) : option bytes :=
  match s with
  | [] => Some []
  | c :: r =>
      if Ascii.eqb c "%"%char then
        match r with
        | h1 :: h2 :: r2 =>
            match unhex h1, unhex h2 with
            | Some a, Some b => option_map (cons (byte (16 * a + b))) (path_unescape r2)
            | _, _ => None
            end
        | _ => None
        end
      else option_map (cons c) (path_unescape r)
  end.
(** url.go validEncoded(s, encodePath), one byte *)
Definition valid_path_byte (c : ascii) : bool := (path_keeps c || existsb (Ascii.eqb c) (bs "!'()*[]%"))%bool.
(** url.go escape(s, encodeHost) *)
Definition host_keeps (c : ascii) : bool := (unreserved c || existsb (Ascii.eqb c) (bs "!$&'()*+,;=:[]<>""" ))%bool.
Definition escape_host (s : bytes) : bytes :=
  flat_map (fun c => if host_keeps c then [c] else [("%"%char); hex_upper (code c / 16); hex_upper (code c mod 16)]) s.
(** url.go stringContainsCTLByte *)
Definition ctl_byte (c : ascii) : bool := (Nat.ltb (code c) 32 || Nat.eqb (code c) 127)%bool.
Section Url.
  Variable parse_other : bytes -> option (url * bool).
  (** url.go ParseRequestURI, parse, setPath: the URL and its ForceQuery. A lone question mark at the
      end is taken off first in Go and sets ForceQuery, which the cut at the first question mark and the
      comparison here give too. *)
  Definition parse_target (t : bytes) : option (url * bool) :=
    match t with
    | "/"%char :: _ =>
        if existsb ctl_byte t then None else
        let (rest, q) := cut "?"%char t in
        match path_unescape rest with
        | None => None
        | Some p => Some (mkUrl [] [] [] p (if beq rest (escape_path p) then [] else rest) q [], (is_nil q && negb (beq rest t))%bool)
        end
    | _ => parse_other t
    end.
  (** url.go EscapedPath *)
  Definition escaped_path (u : url) : bytes :=
    if (negb (is_nil (u_rawpath u)) && forallb valid_path_byte (u_rawpath u)
        && match path_unescape (u_rawpath u) with Some p => beq p (u_path u) | None => false end)%bool
    then u_rawpath u
    else if beq (u_path u) (bs "*") then bs "*" else escape_path (u_path u).
  Definition query_part (u : url) (force : bool) : bytes := if (force || negb (is_nil (u_query u)))%bool then "?"%char :: u_query u else [].
  (** url.go RequestURI *)
  Definition request_uri (u : url) (force : bool) : bytes :=
    (if is_nil (u_opaque u) then let p := escaped_path u in if is_nil p then bs "/" else p
     else match u_opaque u with "/"%char :: "/"%char :: _ => u_scheme u ++ bs ":" ++ u_opaque u | o => o end)
    ++ query_part u force.
  (** url.go String *)
  Definition url_text (u : url) (force : bool) : bytes :=
    (if is_nil (u_scheme u) then [] else u_scheme u ++ bs ":")
    ++ (if is_nil (u_opaque u) then
          (if (is_nil (u_scheme u) && is_nil (u_host u))%bool then [] else
             (if (is_nil (u_host u) && is_nil (u_path u))%bool then [] else bs "//") ++ escape_host (u_host u))
          ++ (let p := escaped_path u in
              (if (negb (is_nil p) && negb (Ascii.eqb (hd "/"%char p) "/"%char) && negb (is_nil (u_host u)))%bool then bs "/" else []) ++ p)
        else u_opaque u)
    ++ query_part u force.
  (** params/real.go:63-75 RealURL of a request whose URL is [u]; ForceQuery is the request's *)
  Definition real_url_text (fwd_host fwd_proto orig_uri host : bytes) (u : url) (force : bool) : option bytes :=
    option_map (fun r => url_text r force)
      (real_url (fun s => option_map fst (parse_target s)) fwd_host fwd_proto orig_uri host u (request_uri u force)).
End Url.
