(** TimeModel: what /repo/params/binder.go:48-52, 150-173, 205 (TimeBinder with the
    formats the package starts with) makes of a text, through time.Parse and
    time.ParseInLocation of the Go standard library.

    Simplifications:
    - of the elements a layout can have only those of the four layouts are modelled:
      2006, 01, 02, 15, 04, 05 and Z07:00;
    - what differs between Go versions is a parameter: whether a comma can start a
      fraction of a second, how many digits it may have ([nanos]), which offsets the
      six bytes of a zone stand for ([offset]);
    - a time is its calendar fields and its zone: [None] is time.Local. *)
From Coq Require Import List Ascii String Bool Arith ZArith Lia.
Import ListNotations.
From Verif Require Import GoStr GoNum RouterModel ParamsModel.

(** ** Layouts: time/format.go nextStdChunk, repeatedly *)
Inductive chunk := CYear | CMonth | CDay | CHour | CMinute | CSecond | CZone | CLit (c : ascii).
Definition blank : ascii := " "%char.
(** time/format.go cutspace *)
Fixpoint cutspace (s : bytes) : bytes :=
  match s with
  | c :: r => if Ascii.eqb c blank then cutspace r else s
  | [] => []
  end.
Definition std_chunks : list (bytes * chunk) :=
  [(bs "2006", CYear); (bs "01", CMonth); (bs "02", CDay); (bs "15", CHour); (bs "04", CMinute); (bs "05", CSecond); (bs "Z07:00", CZone)].
(** everything else is literal text; a run of blanks counts once (see [skip]) *)
Fixpoint chunks_fuel (n : nat) (s : bytes) : list chunk :=
  match n with
  | O => []
  | S n =>
      match find (fun p => has_prefix s (fst p)) std_chunks with
      | Some (p, k) => k :: chunks_fuel n (skipn (List.length p) s)
      | None =>
          match s with
          | [] => []
          | c :: r => CLit c :: chunks_fuel n (if Ascii.eqb c blank then cutspace r else r)
          end
      end
  end.
Definition chunks (s : bytes) : list chunk := chunks_fuel (List.length s) s.

(** ** time/format.go parse *)
Record civil := mkCivil { cv_year : Z; cv_month : Z; cv_day : Z; cv_hour : Z; cv_minute : Z; cv_second : Z; cv_nanos : Z; cv_zone : option Z }.
(** time.daysIn *)
Definition is_leap (y : Z) : bool := (Z.eqb (y mod 4) 0 && (negb (Z.eqb (y mod 100) 0) || Z.eqb (y mod 400) 0))%bool.
Definition days_in (m y : Z) : Z :=
  if Z.eqb m 2 then (if is_leap y then 29 else 28) else if (Z.eqb m 4 || Z.eqb m 6 || Z.eqb m 9 || Z.eqb m 11)%bool then 30 else 31.
Definition digit_at (s : bytes) (i : nat) : bool := match nth_error s i with Some c => match digit_val c with Some _ => true | None => false end | None => false end.
(** getnum: two digits, or one unless [fixed] *)
Definition getnum (fixed : bool) (s : bytes) : option (Z * bytes) :=
  match s with
  | c :: r =>
      match digit_val c with
      | None => None
      | Some d =>
          match r with
          | c2 :: r2 => match digit_val c2 with Some d2 => Some (d * 10 + d2, r2)%Z | None => if fixed then None else Some (d, r) end
          | [] => if fixed then None else Some (d, [])
          end
      end
  | [] => None
  end.
Fixpoint digits_len (s : bytes) : nat := match s with c :: r => match digit_val c with Some _ => S (digits_len r) | None => 0 end | [] => 0 end.

Section Parse.
  Variable comma : bool.                          (* commaOrPeriod since Go 1.17 *)
  Variable nanos : bytes -> option Z.             (* parseNanoseconds, of the digits *)
  Variable offset : bytes -> option Z.            (* of +hh:mm or -hh:mm, in seconds *)

  Definition is_point (c : ascii) : bool := (Ascii.eqb c "."%char || (comma && Ascii.eqb c ","%char))%bool.
  (** a number below a bound: getnum and the range check *)
  Definition num_below (fixed : bool) (lo hi : Z) (s : bytes) : option (Z * bytes) :=
    match getnum fixed s with Some (n, r) => if (Z.leb lo n && Z.ltb n hi)%bool then Some (n, r) else None | None => None end.
  (** one element of the layout *)
  Definition parse_chunk (k : chunk) (s : bytes) (t : civil) : option (bytes * civil) :=
    let '(mkCivil y mo d h mi se ns z) := t in
    match k with
    | CLit c =>                                     (* skip *)
        if Ascii.eqb c blank
        then match s with [] => Some ([], t) | x :: _ => if Ascii.eqb x blank then Some (cutspace s, t) else None end
        else match s with x :: r => if Ascii.eqb x c then Some (r, t) else None | [] => None end
    | CYear =>
        if (Nat.ltb (List.length s) 4 || negb (digit_at s 0))%bool then None else
        match dval 0 (firstn 4 s) with Some n => Some (skipn 4 s, mkCivil n mo d h mi se ns z) | None => None end
    | CMonth => match num_below true 1 13 s with Some (n, r) => Some (r, mkCivil y n d h mi se ns z) | None => None end
    | CDay => match getnum true s with Some (n, r) => Some (r, mkCivil y mo n h mi se ns z) | None => None end
    | CHour => match num_below false 0 24 s with Some (n, r) => Some (r, mkCivil y mo d n mi se ns z) | None => None end
    | CMinute => match num_below true 0 60 s with Some (n, r) => Some (r, mkCivil y mo d h n se ns z) | None => None end
    | CSecond =>
        match num_below true 0 60 s with
        | None => None
        | Some (n, r) =>
            match r with
            | p :: f =>
                if (is_point p && digit_at f 0)%bool
                then match nanos (firstn (digits_len f) f) with Some k => Some (skipn (digits_len f) f, mkCivil y mo d h mi n k z) | None => None end
                else Some (r, mkCivil y mo d h mi n ns z)
            | [] => Some ([], mkCivil y mo d h mi n ns z)
            end
        end
    | CZone =>
        match s with
        | [] => None
        | c :: r =>
            if Ascii.eqb c "Z"%char then Some (r, mkCivil y mo d h mi se ns (Some 0%Z)) else
            match nth_error s 3 with
            | Some x =>
                if (Nat.ltb (List.length s) 6 || negb (Ascii.eqb x ":"%char) || negb (Ascii.eqb c "+"%char || Ascii.eqb c "-"%char))%bool then None else
                match offset (firstn 6 s) with Some o => Some (skipn 6 s, mkCivil y mo d h mi se ns (Some o)) | None => None end
            | None => None
            end
        end
    end.
  Fixpoint parse_chunks (ks : list chunk) (s : bytes) (t : civil) : option civil :=
    match ks with
    | [] => if is_nil s then Some t else None       (* extra text *)
    | k :: ks => match parse_chunk k s t with Some (s, t) => parse_chunks ks s t | None => None end
    end.
  (** the day is checked at the end *)
  Definition parse_layout (layout s : bytes) : option civil :=
    match parse_chunks (chunks layout) s (mkCivil 0 1 1 0 0 0 0 None) with
    | Some t => if (Z.leb 1 (cv_day t) && Z.leb (cv_day t) (days_in (cv_month t) (cv_year t)))%bool then Some t else None
    | None => None
    end.

  (** ** binder.go:48-52, 205: TimeFormats *)
  Definition DEFAULT_DATE_FORMAT : bytes := bs "2006-01-02".
  Definition DEFAULT_DATETIME_FORMAT : bytes := bs "2006-01-02 15:0".
  Definition DEFAULT_DATETIME_FORMAT_SECOND : bytes := bs "2006-01-02 15:04:05".
  Definition RFC3339 : bytes := bs "2006-01-02T15:04:05Z07:00".
  Definition default_formats : list bytes := [DEFAULT_DATE_FORMAT; DEFAULT_DATETIME_FORMAT; DEFAULT_DATETIME_FORMAT_SECOND; RFC3339].

  (** what a time.Time parameter can be bound to *)
  Inductive gtime := TZero | TUnix (seconds : Z) | TCivil (c : civil).
  (** time.Parse takes UTC where a layout has no zone, ParseInLocation the local zone *)
  Definition utc (c : civil) : civil := match cv_zone c with None => mkCivil (cv_year c) (cv_month c) (cv_day c) (cv_hour c) (cv_minute c) (cv_second c) (cv_nanos c) (Some 0%Z) | _ => c end.
  Definition time_parse (f v : bytes) : option gtime := option_map (fun c => TCivil (utc c)) (parse_layout f v).
  Definition time_parse_local (f v : bytes) : option gtime := option_map TCivil (parse_layout f v).
End Parse.
