(** UserAgent: what a browser does with Set-Cookie lines and which Cookie line it sends,
    after RFC 6265, sections 5.1 to 5.4. It is the specification of the client's side.

    Simplifications: host names are lower case already; no public suffix is configured as a
    domain; no limits on the number and size of cookies; times are in nanoseconds. *)
From Coq Require Import List Ascii String Bool Arith ZArith Lia.
Import ListNotations.
From Verif Require Import GoStr GoNum CookieModel.

(** ** 5.2 parsing a Set-Cookie line *)
Definition wsp (c : ascii) : bool := (Nat.eqb (code c) 32 || Nat.eqb (code c) 9)%bool.
Fixpoint drop_wsp (s : bytes) : bytes := match s with c :: s' => if wsp c then drop_wsp s' else s | [] => [] end.
Definition strip (s : bytes) : bytes := rev (drop_wsp (rev (drop_wsp s))).
Record attrs := mkAttrs {
  a_max_age : option Z; a_expires : option bytes; a_domain : option bytes; a_path : option bytes; a_secure : bool; a_httponly : bool }.
Definition no_attrs : attrs := mkAttrs None None None None false false.
(** 5.2.2: digits, with a minus sign perhaps *)
Definition max_age (v : bytes) : option Z :=
  match v with
  | "-"%char :: d => option_map Z.opp (dval 0 d)
  | [] => None
  | _ => dval 0 v
  end.
(** 5.2.1 to 5.2.6: the last attribute of a name counts *)
Definition attribute (a : attrs) (av : bytes) : attrs :=
  let (n0, v0) := cut "=" av in
  let n := to_lower (strip n0) in
  let v := strip v0 in
  if beq n (bs "max-age") then match max_age v with Some z => mkAttrs (Some z) (a_expires a) (a_domain a) (a_path a) (a_secure a) (a_httponly a) | None => a end else
  if beq n (bs "expires") then mkAttrs (a_max_age a) (Some v) (a_domain a) (a_path a) (a_secure a) (a_httponly a) else
  if beq n (bs "domain") then if is_nil v then a else mkAttrs (a_max_age a) (a_expires a) (Some (to_lower (undot v))) (a_path a) (a_secure a) (a_httponly a) else
  if beq n (bs "path") then mkAttrs (a_max_age a) (a_expires a) (a_domain a) (match v with "/"%char :: _ => Some v | _ => None end) (a_secure a) (a_httponly a) else
  if beq n (bs "secure") then mkAttrs (a_max_age a) (a_expires a) (a_domain a) (a_path a) true (a_httponly a) else
  if beq n (bs "httponly") then mkAttrs (a_max_age a) (a_expires a) (a_domain a) (a_path a) (a_secure a) true else a.
Definition parse_set_cookie (line : bytes) : option (bytes * bytes * attrs) :=
  match split_byte ";" line with
  | [] => None
  | kv :: avs =>
      match index_byte "=" kv with
      | None => None
      | Some i => let n := strip (firstn i kv) in
                  if is_nil n then None else Some (n, strip (skipn (S i) kv), fold_left attribute avs no_attrs)
      end
  end.

(** ** 5.3 the cookies a browser keeps, oldest first *)
Inductive until := TheEnd | At (t : Z) | Past.               (* TheEnd: until the browser is closed *)
Record kept := mkKept {
  u_name : bytes; u_value : bytes; u_domain : bytes; u_host_only : bool; u_path : bytes; u_until : until; u_secure : bool; u_httponly : bool }.
Section Agent.
  Variable parse_date : bytes -> option Z.
  (** 5.1.3, 5.1.4 *)
  Definition domain_match (host d : bytes) : bool := (beq host d || has_suffix host ("."%char :: d) && negb (is_ipv4 host))%bool.
  Definition path_match (req p : bytes) : bool :=
    (beq req p || has_prefix req p && (has_suffix p (bs "/") || has_prefix (skipn (List.length p) req) (bs "/")))%bool.
  Definition default_path (req : bytes) : bytes :=
    match req with
    | "/"%char :: _ => match last_index_sub req (bs "/") with Some 0 | None => bs "/" | Some i => firstn i req end
    | _ => bs "/"
    end.
  Definition keep_until (now : Z) (a : attrs) : until :=
    match a_max_age a with
    | Some z => if (z <=? 0)%Z then Past else At (now + z * 1000000000)
    | None => match a_expires a with
              | Some d => match parse_date d with Some t => At t | None => TheEnd end
              | None => TheEnd
              end
    end.
  Definition same (a b : kept) : bool := (beq (u_name a) (u_name b) && beq (u_domain a) (u_domain b) && beq (u_path a) (u_path b))%bool.
  Definition alive (now : Z) (u : until) : bool := match u with TheEnd => true | At t => (now <=? t)%Z | Past => false end.
  (** the cookie a line of a response to a request (host, path) makes *)
  Definition received (now : Z) (host req line : bytes) : option kept :=
    match parse_set_cookie line with
    | None => None
    | Some (n, v, a) =>
        let path := match a_path a with Some p => p | None => default_path req end in
        let mk d ho := Some (mkKept n v d ho path (keep_until now a) (a_secure a) (a_httponly a)) in
        match a_domain a with
        | Some d => if domain_match host d then mk d false else None
        | None => mk host true
        end
    end.
  (** a cookie of the same name, domain and path is replaced in its place *)
  Definition put (u : kept) (jar : list kept) : list kept :=
    if existsb (same u) jar then map (fun x => if same u x then u else x) jar else jar ++ [u].
  Definition store_line (now : Z) (host req : bytes) (jar : list kept) (line : bytes) : list kept :=
    match received now host req line with
    | None => jar
    | Some u => filter (fun x => alive now (u_until x)) (put u jar)
    end.
  Definition store_lines (now : Z) (host req : bytes) (lines : list bytes) (jar : list kept) : list kept :=
    fold_left (store_line now host req) lines jar.
  (** closing the browser *)
  Definition closed (jar : list kept) : list kept := filter (fun x => match u_until x with TheEnd => false | _ => true end) jar.

  (** ** 5.4 the Cookie line of a request *)
  Definition sendable (now : Z) (https : bool) (host path : bytes) (u : kept) : bool :=
    (alive now (u_until u) && (if u_host_only u then beq host (u_domain u) else domain_match host (u_domain u))
     && path_match path (u_path u) && (negb (u_secure u) || https))%bool.
  (** longer paths first; of equal lengths the older first *)
  Fixpoint insert (u : kept) (l : list kept) : list kept :=
    match l with
    | [] => [u]
    | x :: l' => if Nat.leb (List.length (u_path x)) (List.length (u_path u)) then u :: l else x :: insert u l'
    end.
  Definition sorted (l : list kept) : list kept := fold_right insert [] l.
  Definition sent (now : Z) (https : bool) (host path : bytes) (jar : list kept) : list kept := sorted (filter (sendable now https host path) jar).
  Definition cookie_lines (now : Z) (https : bool) (host path : bytes) (jar : list kept) : list bytes :=
    match sent now https host path jar with
    | [] => []
    | l => [join (bs "; ") (map (fun u => u_name u ++ bs "=" ++ u_value u) l)]
    end.
End Agent.
