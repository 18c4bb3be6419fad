(* M_FormatThreads.v -- threads that each use a Format of their own; what they
   share is the static variable Format::separator. *)
From Verif Require Import Base M_Stream M_Float M_Format M_FormatF M_FormatMem.

(* what a thread does: makes a new Format in place of the one it has
   (Format.cxx 52-59), calls addX (144-252, 392-536), reset (551-555),
   str (558-579), assigns Format::separator (Format.hxx 507, Format.cxx 40) *)
Inductive taction :=
| TNew (s : str) | TAdd (c : addcall) | TReset | TStr (check : bool) | TSetSep (ch : ascii).

(* the call with Format::separator = sep (Format.cxx 440) *)
Definition with_sep (sep : ascii) (c : addcall) : addcall :=
  match c with AF _ v fm w sd => AF sep v fm w sd | _ => c end.

(* Format.cxx 438-442: the only place where separator is read *)
Definition reads_sep (c : addcall) : bool :=
  match c with AF _ v fm _ _ => Ascii.eqb fm "e" && deq v dzero | _ => false end.

(* a thread (bookkeeping; its Format: Format.hxx 536-548): what is left to do, the separator it has read for the call it is
   in, its Format, the results of str so far *)
Record thr := mkThr { t_rest : list taction; t_held : option ascii; t_fmt : option fmt; t_out : list (outcome str) }.

(* everything a call does apart from reading separator (Format.cxx 52-59,
   144-252, 392-579); None: undefined
   behaviour, or addF goes round for ever: the thread gets no further *)
Definition t_do (im : ctype_impl) (fuel : nat) (sep : ascii) (a : taction)
    (fo : option fmt) (out : list (outcome str)) : option (option fmt * list (outcome str)) :=
  match a, fo with
  | TNew s, _ => match newFormat im s with Ok f => Some (Some f, out) | _ => None end
  | TAdd c, Some f => match full_text fuel (with_sep sep c) with
                      | Some t => Some (Some (insertField f t), out) | None => None end
  | TReset, Some f => match reset im f with Ok g => Some (Some g, out) | _ => None end
  | TStr check, Some f => Some (fo, out ++ [fmt_str f check])
  | TSetSep _, _ => Some (fo, out)
  | _, None => None
  end.

(* the separator (Format.hxx 507) and the threads *)
Definition tstate := (ascii * (nat -> thr))%type.
(* thread i changed (bookkeeping) *)
Definition t_upd (th : nat -> thr) (i : nat) (t : thr) : nat -> thr :=
  fun j => if Nat.eqb j i then t else th j.

(* one step of thread i.  The accesses to separator are steps of their own;
   the rest of a call touches nothing another thread can see. *)
Inductive tstep (im : ctype_impl) (fuel : nat) : tstate -> nat -> tstate -> Prop :=
(* Format.cxx 440: separator is read *)
| ts_read sep th i c r fo out :
    th i = mkThr (TAdd c :: r) None fo out -> reads_sep c = true ->
    tstep im fuel (sep, th) i (sep, t_upd th i (mkThr (TAdd c :: r) (Some sep) fo out))
(* Format::separator = ch *)
| ts_write sep th i ch r fo out :
    th i = mkThr (TSetSep ch :: r) None fo out ->
    tstep im fuel (sep, th) i (ch, t_upd th i (mkThr r None fo out))
(* the rest of addF after the read *)
| ts_held sep th i c x r fo out fo' out' :
    th i = mkThr (TAdd c :: r) (Some x) fo out ->
    t_do im fuel x (TAdd c) fo out = Some (fo', out') ->
    tstep im fuel (sep, th) i (sep, t_upd th i (mkThr r None fo' out'))
(* a call that does not look at separator (the value given to t_do is not used) *)
| ts_other sep th i a r fo out fo' out' :
    th i = mkThr (a :: r) None fo out ->
    (match a with TAdd c => reads_sep c = false | TSetSep _ => False | _ => True end) ->
    t_do im fuel nul a fo out = Some (fo', out') ->
    tstep im fuel (sep, th) i (sep, t_upd th i (mkThr r None fo' out')).

(* the threads with their programs (bookkeeping) *)
Definition t_start (sep : ascii) (prog : nat -> list taction) : tstate :=
  (sep, fun i => mkThr (prog i) None None []).
(* any schedule (bookkeeping) *)
Inductive treach (im : ctype_impl) (fuel : nat) (g : tstate) : tstate -> Prop :=
| tr_here : treach im fuel g g
| tr_step g1 i g2 : treach im fuel g g1 -> tstep im fuel g1 i g2 -> treach im fuel g g2.

(* the access to separator thread t is about to make: Some true writes,
   Some false reads (440; Format.hxx 507) *)
Definition t_access (t : thr) : option bool :=
  match t_rest t with
  | TSetSep _ :: _ => Some true
  | TAdd c :: _ => if reads_sep c then match t_held t with None => Some false | Some _ => None end else None
  | _ => None
  end.
