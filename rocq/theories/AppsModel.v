(** AppsModel: several applications and their global filters:
    /repo/app.go:37-56 (New), 91-93 (Filter), app_util.go:14-16 (ReplaceFilters), over Go slices (SliceModel).

    Simplifications: of an application only the global filters; the applications are numbered in the
    order of New; calls are made one after the other. *)
From Coq Require Import List Ascii String Bool Arith.
Import ListNotations.
From Verif Require Import GoStr GoTy RouterModel SliceModel.

Inductive acall :=
| CNew                                   (* app.go:37-56: filters is nil *)
| CFilter (i : nat) (fs : filters)       (* app i .Filter(fs...) *)
| CReplace (old new : nat).              (* ReplaceFilters(app old, app new) *)

Section Apps.
  Variable grow : nat -> nat.            (* as in SliceModel *)
  Definition apps : Type := fheap * list slice.
  Definition apps0 : apps := ([], []).
  Definition acall_run (c : acall) (st : apps) : apps :=
    let '(h, ss) := st in
    match c with
    | CNew => let '(h1, s) := smake h [] 0 in (h1, ss ++ [s])
    (* app.go:91-93: s.filters = s.filters.append(makeFilters(handlers)...) *)
    | CFilter i fs =>
        match nth_error ss i with
        | None => st
        | Some s => let '(h1, s1) := happend grow h s fs in (h1, set_nth i s1 ss)
        end
    (* app_util.go:14-16: old.filters = new.filters *)
    | CReplace o n =>
        match nth_error ss n with
        | None => st
        | Some s => (h, set_nth o s ss)
        end
    end.
  Definition acalls_run (cs : list acall) (st : apps) : apps := fold_left (fun st c => acall_run c st) cs st.
  (** the filters the next request of app i runs first (app.go:110: newContext(nil, trw, s.filters, ...)) *)
  Definition app_runs (st : apps) (i : nat) : option filters := option_map (vals (fst st)) (nth_error (snd st) i).
End Apps.
