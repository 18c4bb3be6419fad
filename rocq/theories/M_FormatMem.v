(* M_FormatMem.v -- a Format while memory may run out: any call that allocates
   may fail, at any of its allocations. *)
From Verif Require Import Base M_Stream M_Float M_Format M_FormatF.

(* the addX calls (Format.hxx 302-471), with the arguments of addI_text,
   addU_text, addF_text, addS_text; [AF] carries Format::separator *)
Inductive addcall :=
| AI (v w : Z) (sep fill : ascii)
| AU (v : N) (fm : ascii) (w : Z) (sep : ascii) (gc : Z)
| AF (sep : ascii) (v : double) (fm : ascii) (w sd : Z)
| AS (v : str) (width : Z)
| AC (c : ascii)
| AB (b : bool).

(* the text the call inserts when memory lasts (Format.cxx 144-252, 392-536);
   [fuel] bounds the loops of addF; None: undefined behaviour or fuel too small *)
Definition full_text (fuel : nat) (c : addcall) : option str :=
  match c with
  | AI v w sep fill => Some (addI_text v w sep fill)
  | AU v fm w sep gc => Some (addU_text v fm w sep gc)
  | AF sep v fm w sd => match addF_text fuel sep v fm w sd with Some (Ok t) => Some t | _ => None end
  | AS v width => match addS_text v width with Ok t => Some t | _ => None end
  | AC c => Some (addC_text c)
  | AB b => Some (addB_text b)
  end.

(* what is left in a std::stringstream (Format.cxx 145, 157, 186, 259, 273, 393,
   525, 532) that had to hold [s]: inserting catches
   std::bad_alloc, sets badbit and returns, and every later insertion does
   nothing ([ostream.formatted.reqmts]); no mask is set with exceptions() in
   Format.cxx.  Over-approximated: it may be cut after any character. *)
Definition streamed (s t : str) : Prop := exists r, s = t ++ r.

(* the text a call inserts when a stringstream of its own ran out of memory.
   145-176: addI has one stream, or two when it separates groups;
   186-252: addU groups what toHex, toOct or pre_ss left;
   404-411: nan and inf go through no stream; 496-522: addS neither. *)
Inductive cut_text (fuel : nat) : addcall -> str -> Prop :=
| cut_addI v w sep fill t : is_nul sep = true ->
    streamed (addI_text v w sep fill) t -> cut_text fuel (AI v w sep fill) t
| cut_addI_sep v w sep fill n t : is_nul sep = false ->
    streamed (put_int v) n ->
    streamed (let body := addI_group sep (rev n) 0 [] in
              if (w =? 0)%Z then body
              else pad_l (if is_nul fill then " "%char else fill) (to_i32 w) body) t ->
    cut_text fuel (AI v w sep fill) t
| cut_addU v fm w sep gc n : streamed (addU_valstr v fm w) n ->
    cut_text fuel (AU v fm w sep gc)
      (if is_nul sep then n
       else let lim := match radix_of fm with
                       | RHex _ => to_i32 (Z.of_nat (length n)) - 2
                       | ROct => to_i32 (Z.of_nat (length n)) - 1
                       | RDec => to_i32 (Z.of_nat (length n))
                       end%Z in
            addU_group sep gc lim (rev n) 0 0 [])
| cut_addF sep v fm w sd s t : d_isnan v = false -> d_isnan (dopp v) = false -> d_isinf v = false ->
    full_text fuel (AF sep v fm w sd) = Some s -> streamed s t ->
    cut_text fuel (AF sep v fm w sd) t
| cut_addC c t : streamed (addC_text c) t -> cut_text fuel (AC c) t
| cut_addB b t : streamed (addB_text b) t -> cut_text fuel (AB b) t.

(* the text with which insertField is called (174, 251, 405-410, 493, 511-521,
   527, 534); [cut]: a stream ran out of memory on the way *)
Definition text_of (fuel : nat) (c : addcall) (cut : bool) (t : str) : Prop :=
  if cut then cut_text fuel c t else full_text fuel c = Some t.

(* the calls that change a Format (Format.hxx 302-471) *)
Inductive memcall := MAdd (c : addcall) | MReset.

(* one call: [cut] as above, [thrown]: std::bad_alloc leaves the call.
   The caller can see [thrown] and cannot see [cut]. *)
Inductive memstep (im : ctype_impl) (fuel : nat) (f : fmt) : memcall -> bool -> bool -> fmt -> Prop :=
(* the call returns *)
| mem_add c cut t : text_of fuel c cut t ->
    memstep im fuel f (MAdd c) cut false (insertField f t)
(* no memory for the text itself: strings built with + and push_back, ss.str() *)
| mem_add_text c cut : memstep im fuel f (MAdd c) cut true f
(* 540-545: no memory for [fld.val = s] of some segment: the segments before it
   are done, it and those after it are not, and 547 is not reached *)
| mem_add_field c cut t a b : text_of fuel c cut t ->
    f_segs f = a ++ SVal (f_cur f) :: b ->
    memstep im fuel f (MAdd c) cut true
      (mkFmt (map (fill_seg (f_cur f) t) a ++ SVal (f_cur f) :: b) (f_orig f) (f_cur f))
(* 551-555 *)
| mem_reset g : reset im f = Ok g -> memstep im fuel f MReset false false g
(* 62-142: no memory during the scan: the segments pushed so far are left, 553
   is not reached *)
| mem_reset_scan a b : initialScan im (f_orig f) = Ok (a ++ b) ->
    memstep im fuel f MReset false true (mkFmt a (f_orig f) (f_cur f)).

(* any history of calls, whatever fails (bookkeeping) *)
Inductive memhist (im : ctype_impl) (fuel : nat) : fmt -> fmt -> Prop :=
| memhist_nil f : memhist im fuel f f
| memhist_cons f k cut thrown g h :
    memstep im fuel f k cut thrown g -> memhist im fuel g h -> memhist im fuel f h.

(* the caller repeats a call that threw until it returns; no stream is cut
   (bookkeeping) *)
Inductive tried (im : ctype_impl) (fuel : nat) : fmt -> memcall -> fmt -> Prop :=
| tried_done f k g : memstep im fuel f k false false g -> tried im fuel f k g
| tried_again f k g h : memstep im fuel f k false true g -> tried im fuel g k h -> tried im fuel f k h.
(* every one of a list of calls, in this way (bookkeeping) *)
Inductive tried_all (im : ctype_impl) (fuel : nat) : fmt -> list memcall -> fmt -> Prop :=
| tried_all_nil f : tried_all im fuel f [] f
| tried_all_cons f k r g h : tried im fuel f k g -> tried_all im fuel g r h -> tried_all im fuel f (k :: r) h.
