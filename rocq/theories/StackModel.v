(** StackModel: /repo/app_util.go:256-330 (Stack, FileSource, source, function) and /repo/recovery.go:15-60,104-126
    (the page shown for a panic in development mode).

    Simplifications:
    - the frames runtime.Caller reports are given as a list, from the frame [skip] on; program counters are numbers
      of N, FuncForPC is a parameter;
    - reading a file is a parameter that does not change while Stack runs;
    - what fmt prints for the panic value with %s, %T and %#v are parameters of the page. *)
From Coq Require Import List Ascii String Bool Arith ZArith NArith Lia.
Import ListNotations.
From Verif Require Import GoStr GoNum.

(** ** Helpers of package bytes, strings, html *)
(** strings.Split(line, " (") *)
Definition push (c : ascii) (l : list bytes) : list bytes := match l with [] => [[c]] | p :: r => (c :: p) :: r end.
Fixpoint split_paren (s : bytes) : list bytes :=
  match s with
  | [] => [[]]
  | c :: r =>
      match r with
      | d :: r' => if (Ascii.eqb c " "%char && Ascii.eqb d "("%char)%bool then [] :: split_paren r' else push c (split_paren r)
      | [] => [[c]]
      end
  end.
(** bytes.Trim(s, " \t") *)
Definition blank (c : ascii) : bool := (Ascii.eqb c " "%char || Ascii.eqb c (byte 9))%bool.
Fixpoint trim_left_blank (s : bytes) : bytes := match s with c :: r => if blank c then trim_left_blank r else s | [] => [] end.
Definition trim_blank (s : bytes) : bytes := rev (trim_left_blank (rev (trim_left_blank s))).
(** bytes.Replace(name, "·", ".", -1); the centre dot is C2 B7 *)
Fixpoint replace_dots (s : bytes) : bytes :=
  match s with
  | [] => []
  | c :: r =>
      match r with
      | d :: r' => if (Ascii.eqb c (byte 194) && Ascii.eqb d (byte 183))%bool then "."%char :: replace_dots r' else c :: replace_dots r
      | [] => [c]
      end
  end.
(** html.EscapeString *)
Definition escape_char (c : ascii) : bytes :=
  if Ascii.eqb c "&"%char then bs "&amp;" else
  if Ascii.eqb c "'"%char then bs "&#39;" else
  if Ascii.eqb c "<"%char then bs "&lt;" else
  if Ascii.eqb c ">"%char then bs "&gt;" else
  if Ascii.eqb c (byte 34) then bs "&#34;" else [c].
Definition escape_html (s : bytes) : bytes := flat_map escape_char s.
(** fmt's %x *)
Definition hex_digit (n : N) : ascii := nth (N.to_nat n) (bs "0123456789abcdef") "0"%char.
Fixpoint hex_fuel (fuel : nat) (n : N) (acc : bytes) : bytes :=
  match fuel with
  | 0 => acc
  | S f => let acc := hex_digit (N.modulo n 16) :: acc in if N.eqb (N.div n 16) 0 then acc else hex_fuel f (N.div n 16) acc
  end.
Definition print_hex (n : N) : bytes := hex_fuel (S (N.size_nat n)) n [].

Definition newline : ascii := byte 10.
Definition tab : ascii := byte 9.

(** ** app_util.go *)
Record frame := mkFrame { f_file : bytes; f_line : Z; f_pc : N }.

Section Stack.
  Variable read : bytes -> option bytes.            (* ioutil.ReadFile *)
  Variable func_name : N -> option bytes.           (* runtime.FuncForPC(pc), its Name *)

  (** lines 296-302 source *)
  Definition source (lines : list bytes) (n : Z) : bytes :=
    let n := (n - 1)%Z in
    if (n <? 0)%Z || (Z.of_nat (List.length lines) <=? n)%Z then bs "???" else trim_blank (nth (Z.to_nat n) lines []).
  (** lines 305-329 function *)
  Definition function_name (pc : N) : bytes :=
    match func_name pc with
    | None => bs "???"
    | Some name =>
        let name := match last_index_sub name (bs "/") with Some i => skipn (i + 1) name | None => name end in
        let name := match index_byte "."%char name with Some i => skipn (i + 1) name | None => name end in
        replace_dots name
    end.
  (** lines 286-293 FileSource *)
  Definition file_source (file : bytes) (line : Z) : option bytes :=
    match read file with None => None | Some data => Some (source (split_byte newline data) line) end.
  (** line 273: the first line of a frame *)
  Definition frame_head (f : frame) : bytes := f_file f ++ bs ":" ++ format_int (f_line f) ++ bs " (0x" ++ print_hex (f_pc f) ++ bs ")" ++ [newline].
  (** line 282: the second one *)
  Definition frame_code (lines : list bytes) (f : frame) : bytes := [tab] ++ function_name (f_pc f) ++ bs ": " ++ source lines (f_line f) ++ [newline].
  (** lines 263-284 Stack: the loop, with the variables lines and lastFile *)
  Fixpoint stack_loop (frames : list frame) (lines : list bytes) (last_file : bytes) : bytes :=
    match frames with
    | [] => []
    | f :: r =>
        frame_head f ++
        (if negb (beq (f_file f) last_file) then
           match read (f_file f) with
           | None => stack_loop r lines last_file
           | Some data => let lines := split_byte newline data in frame_code lines f ++ stack_loop r lines (f_file f)
           end
         else frame_code lines f ++ stack_loop r lines last_file)
    end.
  Definition stack (skip : nat) (callers : list frame) : bytes := stack_loop (skipn skip callers) [] [].
End Stack.

(** ** recovery.go:104-126 styleStack *)
Definition odd_line (s : bytes) : bytes := bs "<div class=""line odd"">" ++ s ++ bs "</div>".
Definition even_line (s : bytes) : bytes := bs "<div class=""line even"">" ++ s ++ bs "</div>".
Definition file_part (s : bytes) : bytes := bs "<span class=""file"">" ++ s ++ bs "</span> (".
Definition style_line (line : bytes) : bytes :=
  match line with
  | [] => []
  | c :: _ =>
      if Ascii.eqb c "/"%char then
        odd_line (match split_paren line with
                  | p :: q :: ps => file_part p ++ List.concat (q :: ps)
                  | _ => line
                  end)
      else even_line line
  end.
Definition style_stack (s : bytes) : bytes := join [newline] (map style_line (split_byte newline (escape_html s))).

(** ** recovery.go:15-60 panicHtml and line 95: the page *)
Definition page_open : bytes := bs "<html>
<head><title>PANIC: ".
Definition page_css : bytes := bs "</title>
<style type=""text/css"">
html, body {
	font-family: ""Roboto"", sans-serif;
	color: #333333;
	background-color: #3e3d49;
	margin: 0px;
}
h1 {
	color: #ffffff;
	background-color: #d04526;
	padding: 20px;
}
pre.message {
	font-weight: bold;
}
pre.message,
.stack {
	font-family: Menlo, monospace;
	font-size: 13px;
	margin: 25px 20px;
	padding: 15px;
	background-color: #ffffff;
}
.stack .line {
	margin: 2px 0;
}
.stack .odd {
	margin: 15px 0 5px;
}
.stack .even {
	margin: 5px 0 15px 2em;
}
.stack .file {
	font-weight: bold;
}
</style>
</head><body>
<h1>PANIC: ".
Definition page_message : bytes := bs "</h1>
<pre class=""message"">".
Definition page_stack : bytes := bs "</pre>
<div class=""stack"">".
Definition page_close : bytes := bs "</div>
</body>
</html>".
(** [v], [ty], [gosyntax]: the panic value printed with %s, %T and %#v *)
Definition panic_page (v ty gosyntax stk : bytes) : bytes :=
  page_open ++ v ++ page_css ++ v ++ page_message ++ ty ++ bs ": " ++ gosyntax ++ page_stack ++ style_stack stk ++ page_close.
