(** CookieModel: the cookies of /repo/sessions/manager.go and remember.go as header lines,
    with the functions of package net/http (cookie.go, request.go) they go through.

    Simplifications:
    - the header of a request is its list of Cookie lines, that of a response the list of its
      Set-Cookie lines; they arrive as they were written;
    - of http.Cookie the fields the code sets; the date of Expires is a text, and it is not
      before 1601;
    - the form of IPv4 addresses is that of net.ParseIP since Go 1.17 (no leading zeros). *)
From Coq Require Import List Ascii String Bool Arith ZArith Lia.
Import ListNotations.
From Verif Require Import GoStr GoNum GoEnc ConvModel SecureModel RandModel CacheModel SessModel.

(** ** package net/http *)
(** golang.org/x/net/http/httpguts IsTokenRune *)
Definition is_alpha (c : ascii) : bool := (Nat.leb 65 (code c) && Nat.leb (code c) 90 || Nat.leb 97 (code c) && Nat.leb (code c) 122)%bool.
Definition is_num (c : ascii) : bool := (Nat.leb 48 (code c) && Nat.leb (code c) 57)%bool.
Definition token_byte (c : ascii) : bool := (is_alpha c || is_num c || existsb (Ascii.eqb c) (bs "!#$%&'*+-.^_`|~"))%bool.
(** cookie.go isCookieNameValid *)
Definition name_ok (n : bytes) : bool := (negb (is_nil n) && forallb token_byte n)%bool.
(** cookie.go validCookieValueByte, validCookiePathByte *)
Definition value_byte (c : ascii) : bool :=
  (Nat.leb 32 (code c) && Nat.ltb (code c) 127 && negb (existsb (Ascii.eqb c) (bs """;\")))%bool.
Definition path_byte (c : ascii) : bool := (Nat.leb 32 (code c) && Nat.ltb (code c) 127 && negb (Ascii.eqb c ";"))%bool.
Definition dquote : ascii := """"%char.
(** cookie.go sanitizeCookieName, sanitizeCookieValue *)
Definition san_name (n : bytes) : bytes := map (fun c => if is_newline c then "-"%char else c) n.
Definition san_value (v : bytes) : bytes :=
  let v := filter value_byte v in
  if existsb (fun c => Ascii.eqb c " " || Ascii.eqb c ",")%bool v then dquote :: v ++ [dquote] else v.
(** cookie.go isCookieDomainName: the loop, with last, ok and partlen *)
Fixpoint domain_loop (s : bytes) (last : ascii) (ok : bool) (partlen : nat) : bool :=
  match s with
  | [] => if (Ascii.eqb last "-" || Nat.ltb 63 partlen)%bool then false else ok
  | c :: s' =>
      if is_alpha c then domain_loop s' c true (S partlen) else
      if is_num c then domain_loop s' c ok (S partlen) else
      if Ascii.eqb c "-" then if Ascii.eqb last "." then false else domain_loop s' c ok (S partlen) else
      if Ascii.eqb c "." then
        if (Ascii.eqb last "." || Ascii.eqb last "-")%bool then false else
        if (Nat.ltb 63 partlen || Nat.eqb partlen 0)%bool then false else domain_loop s' c ok 0
      else false
  end.
Definition undot (d : bytes) : bytes := match d with "."%char :: d' => d' | _ => d end.
Definition domain_name (s : bytes) : bool :=
  if (is_nil s || Nat.ltb 255 (List.length s))%bool then false else domain_loop (undot s) "."%char false 0.
(** net.ParseIP of a text without colons *)
Definition ip_part (s : bytes) : bool :=
  (forallb is_num s && match s with [] => false | [_] => true | c :: _ => negb (Ascii.eqb c "0") end
   && match dval 0 s with Some n => (n <=? 255)%Z | None => false end)%bool.
Definition is_ipv4 (s : bytes) : bool :=
  match split_byte "."%char s with [a; b; c; d] => (ip_part a && ip_part b && ip_part c && ip_part d)%bool | _ => false end.
(** cookie.go validCookieDomain *)
Definition valid_domain (d : bytes) : bool := (domain_name d || is_ipv4 d)%bool.

Record hcookie := mkCookie {
  hc_name : bytes; hc_value : bytes; hc_path : bytes; hc_domain : bytes;
  hc_expires : option bytes; hc_max_age : Z; hc_httponly : bool; hc_secure : bool }.
Definition opt (b : bool) (s : bytes) : bytes := if b then s else [].
(** cookie.go Cookie.String *)
Definition cookie_string (c : hcookie) : bytes :=
  if negb (name_ok (hc_name c)) then [] else
  hc_name c ++ bs "=" ++ san_value (hc_value c)
  ++ opt (negb (is_nil (hc_path c))) (bs "; Path=" ++ filter path_byte (hc_path c))
  ++ opt (negb (is_nil (hc_domain c)) && valid_domain (hc_domain c))%bool (bs "; Domain=" ++ undot (hc_domain c))
  ++ match hc_expires c with Some d => bs "; Expires=" ++ d | None => [] end
  ++ (if (0 <? hc_max_age c)%Z then bs "; Max-Age=" ++ format_int (hc_max_age c)
      else if (hc_max_age c <? 0)%Z then bs "; Max-Age=0" else [])
  ++ opt (hc_httponly c) (bs "; HttpOnly")
  ++ opt (hc_secure c) (bs "; Secure").
(** cookie.go SetCookie: the lines it adds *)
Definition set_cookie (c : hcookie) : list bytes := let s := cookie_string c in if is_nil s then [] else [s].

(** net/textproto TrimString *)
Definition http_ws (c : ascii) : bool := existsb (Nat.eqb (code c)) [32; 9; 10; 13].
Fixpoint drop_ws (s : bytes) : bytes := match s with c :: s' => if http_ws c then drop_ws s' else s | [] => [] end.
Definition trim_string (s : bytes) : bytes := rev (drop_ws (rev (drop_ws s))).
(** strings.Cut at one byte *)
Definition cut (c : ascii) (s : bytes) : bytes * bytes :=
  match index_byte c s with Some i => (firstn i s, skipn (S i) s) | None => (s, []) end.
(** cookie.go parseCookieValue, allowing quotes *)
Definition unquote (v : bytes) : bytes :=
  match v with
  | a :: (_ :: _) as r => if (Ascii.eqb a dquote && Ascii.eqb (last r a) dquote)%bool then removelast r else v
  | _ => v
  end.
Definition parse_cookie_value (raw : bytes) : option bytes := let v := unquote raw in if forallb value_byte v then Some v else None.
(** cookie.go readCookies: one part of a line, the lines *)
Definition read_part (part0 : bytes) : list cookie :=
  let part := trim_string part0 in
  if is_nil part then [] else
  let (n0, v0) := cut "=" part in
  let n := trim_string n0 in
  if negb (name_ok n) then [] else match parse_cookie_value v0 with Some v => [(n, v)] | None => [] end.
Definition read_cookies (lines : list bytes) : list cookie := flat_map (fun l => flat_map read_part (split_byte ";" (trim_string l))) lines.
(** request.go AddCookie: Header.Get reads the first line, Header.Set replaces them all *)
Definition add_cookie (c : hcookie) (lines : list bytes) : list bytes :=
  let s := san_name (hc_name c) ++ bs "=" ++ san_value (hc_value c) in
  match lines with
  | l :: _ => if is_nil l then [s] else [l ++ bs "; " ++ s]
  | [] => [s]
  end.

(** ** /repo/sessions *)
(** config.go:9-16 CookieConfig *)
Record cookie_config := mkCC {
  ck_name : bytes; ck_remember : bytes; ck_secure : bool; ck_domain : bytes; ck_expire : Z; ck_remember_expire : Z }.
Section Manager.
  Variable V : Type.
  Variable marshal : amap V -> option bytes.
  Variable unmarshal : bytes -> option (amap V).
  Variable hmac : bytes -> bytes -> bytes.
  Variable http_date : Z -> bytes.                 (* time.Format(http.TimeFormat) *)
  Definition cc_of (k : cookie_config) : ccfg := mkCcfg (ck_name k) (ck_expire k).
  (** manager.go:142-153: the cookie of WriteSessionCookie *)
  Definition session_cookie (k : cookie_config) (value : bytes) : hcookie :=
    mkCookie (ck_name k) value (bs "/") (ck_domain k) None (if (0 <=? ck_expire k)%Z then ck_expire k else 0) true (ck_secure k).
  (** manager.go:129-158 WriteSessionCookie: the lines set, and the request's lines afterwards *)
  Definition write_session_cookie (c : scfg) (k : cookie_config) (sid : bytes) (created : Z) (lines : list bytes) : list bytes * list bytes :=
    match encode_secure hmac sid (cf_key c) created with
    | None => ([], lines)
    | Some v => (set_cookie (session_cookie k v), add_cookie (session_cookie k v) lines)
    end.
  (** manager.go:82-91: the cookie of Destroy *)
  Definition destroy_cookie (k : cookie_config) (now : Z) : hcookie :=
    mkCookie (ck_name k) [] (bs "/") (ck_domain k) (Some (http_date now)) (-1) true (ck_secure k).
  (** remember.go:84-91, 96-102: the cookies of WriteRemember and DestroyRemember *)
  Definition remember_cookie (k : cookie_config) (value : bytes) : hcookie :=
    mkCookie (ck_remember k) value (bs "/") [] None (ck_remember_expire k) true (ck_secure k).
  Definition forget_cookie (k : cookie_config) : hcookie :=
    mkCookie (ck_remember k) [] (bs "/") [] None (-1) true (ck_secure k).

  (** manager.go:166-195 ReadSidFromRequest, remember.go:10-47 HasRemember, of a request *)
  Definition read_sid_request (c : scfg) (k : cookie_config) (now : Z) (lines : list bytes) : option (bytes * Z) :=
    read_sid hmac c (ck_name k) now (read_cookies lines).
  Definition has_remember_request (c : scfg) (k : cookie_config) (now : Z) (lines : list bytes) : bytes * bytes * bool :=
    has_remember hmac (cf_key c) (ck_remember k) (ck_remember_expire k) now (read_cookies lines).
  (** the result of Start or Regenerate, the lines set, and the request's lines afterwards *)
  Definition with_lines (c : scfg) (k : cookie_config) (lines : list bytes) (r : net * mres V) : net * mres V * list bytes * list bytes :=
    match snd r with
    | MOk s created (Some _) => let w := write_session_cookie c k (ss_sid s) created lines in (r, fst w, snd w)
    | _ => (r, [], lines)
    end.
  (** manager.go:49-69 Start, 98-127 Regenerate *)
  Definition start_request (c : scfg) (k : cookie_config) (rd : nat -> option bytes) (now : Z) (lines : list bytes) (n : net) :=
    with_lines c k lines (start V unmarshal hmac c (cc_of k) rd now (read_cookies lines) n).
  Definition regenerate_request (c : scfg) (k : cookie_config) (rd : nat -> option bytes) (now : Z) (lines : list bytes) (params : option (amap V)) (n : net) :=
    with_lines c k lines (regenerate V unmarshal hmac c (cc_of k) rd now (read_cookies lines) params n).
  (** manager.go:73-95 Destroy, which leaves the request as it is *)
  Definition destroy_request (c : scfg) (k : cookie_config) (now : Z) (lines : list bytes) (n : net) : net * list bytes :=
    let r := m_destroy hmac c (cc_of k) now (read_cookies lines) n in
    (fst r, match snd r with Some _ => set_cookie (destroy_cookie k now) | None => [] end).
  (** remember.go:74-93 WriteRemember (ok, and the lines set), 95-103 DestroyRemember *)
  Definition write_remember_request (c : scfg) (k : cookie_config) (now : Z) (psk salt : bytes) : bool * list bytes :=
    match remember_value hmac (cf_key c) psk salt now with
    | None => (false, [])
    | Some v => (true, set_cookie (remember_cookie k v))
    end.
  Definition destroy_remember_request (k : cookie_config) : list bytes := set_cookie (forget_cookie k).
End Manager.
