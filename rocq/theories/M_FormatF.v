(* M_FormatF.v -- model of Format::addF, src/Format.cxx 282-494.
   Format::roundToSigDigs (581-609) is in M_Round.v. *)
From Verif Require Import Base M_Stream M_Float M_Format.
From Flocq Require Import IEEE754.BinarySingleNaN.

(* while(cond(s)) s = body(s);  (Format.cxx 287, 291, 310, 316, 326)
   None: the loop is still running after [fuel] iterations *)
Fixpoint while {S} (fuel : nat) (cond : S -> bool) (body : S -> S) (s : S) : option S :=
  match fuel with
  | O => None
  | Datatypes.S f => if cond s then while f cond body (body s) else Some s
  end.

(* the literal 1.0 (Format.cxx 286, 291, 309) *)
Definition d1 : double := dlit 1.
(* the literal 10.0 (Format.cxx 287-294) *)
Definition d10 : double := dlit 10.
(* the literal 1000.0 (Format.cxx 312, 316) *)
Definition d1000 : double := dlit 1000.

(* Format.cxx 287-290 and 291-294: (v_norm, remul) *)
Definition scale_down (fuel : nat) : double * double -> option (double * double) :=
  while fuel (fun s => dge (fst s) d10) (fun s => (ddiv (fst s) d10, dmul (snd s) d10)).
(* Format.cxx 291-294 *)
Definition scale_up (fuel : nat) : double * double -> option (double * double) :=
  while fuel (fun s => dlt (fst s) d1) (fun s => (dmul (fst s) d10, ddiv (snd s) d10)).

(* Format.cxx 296-299: the rounding increment; sig_digs is an int *)
Fixpoint round_incr (n : nat) : double :=
  match n with
  | O => dlit 5
  | S k => ddiv (round_incr k) d10
  end.

(* Format.cxx 309-320: (ret, v_norm).  Overflow of ret is not modelled: it
   takes 2^29 iterations. *)
Definition thousands (fuel : nat) (x : double) : option (Z * double) :=
  if dlt x d1
  then while fuel (fun s => dlt (snd s) d1) (fun s => (fst s - 3, dmul (snd s) d1000)%Z) (0%Z, x)
  else while fuel (fun s => dgt (snd s) d1000) (fun s => (fst s + 3, ddiv (snd s) d1000)%Z) (0%Z, x).

(* Format.cxx 282-322: returns (ret, v_norm) *)
Definition log1k (fuel : nat) (v : double) (sig_digs : Z) : option (Z * double) :=
  match scale_down fuel (v, d1) with
  | None => None
  | Some s1 =>
    match scale_up fuel s1 with
    | None => None
    | Some (v_norm, remul) =>
      thousands fuel (dmul (dadd v_norm (round_incr (Z.to_nat sig_digs))) remul)
    end
  end.

(* Format.cxx 324-331 *)
Definition getIntPartWidth (fuel : nat) (v : double) : option Z :=
  option_map snd (while fuel (fun s => dgt (fst s) d1) (fun s => (ddiv (fst s) d10, (snd s + 1)%Z)) (v, 0%Z)).

(* Format.cxx 351-356: (modval, iw); iw and significant_digits compare as
   unsigned.  The loop ends after int_wid steps at most. *)
Fixpoint trim_loop (fuel : nat) (sd : Z) (modval iw : Z) : Z * Z :=
  match fuel with
  | O => (modval, iw)
  | S f => if (sd <? iw)%Z then trim_loop f sd (modval * 10) (iw - 1)%Z else (modval, iw)
  end.

(* Format.cxx 367-380: n iterations; (dfrac_part, frac_part).
   10 * frac_part is an int product, the sum is computed in double and
   converted to int. *)
Fixpoint frac_loop (n : nat) (dfrac : double) (frac : Z) : outcome Z :=
  match n with
  | O => Ok frac
  | S k =>
    let d := dmul dfrac d10 in
    let t := (10 * frac)%Z in
    if ((- two31 <=? t) && (t <? two31))%Z then
      do f <- d_to_int (dadd (dlit t) (dfloor d));
      frac_loop k (fst (dmodf d)) f
    else UB
  end.

(* the results of fractionate (Format.cxx 333-335): int_part, frac_part, int_wid, frac_wid *)
Record parts := mkParts { p_int : Z; p_frac : Z; p_iwid : Z; p_fwid : Z }.

(* Format.cxx 333-381; significant_digits is an unsigned int *)
Definition fractionate (fuel : nat) (v : double) (sd : Z) : option (outcome parts) :=
  match getIntPartWidth fuel v with
  | None => None
  | Some int_wid =>
    Some (let '(dfrac, dint) := dmodf v in
          do int_part <- d_to_int dint;
          let '(modval, iw) := trim_loop (Z.to_nat int_wid) sd 1 int_wid in
          let int_part := (int_part - Z.rem int_part modval)%Z in
          let sd_left := to_i32 (sd - iw) in
          do frac <- frac_loop (Z.to_nat sd_left) dfrac 0;
          Ok (mkParts int_part frac int_wid (Z.max 0 sd_left)))
  end.

(* Format.cxx 383-390 *)
Definition pad (s : str) (w : Z) : str := pad_r " "%char w s.

(* Format.cxx 464-488: the text of the 'e' format for v != 0 *)
Definition eng_text (v : double) (width : Z) (exp_val : Z) (p : parts) : str :=
  let fill_wid := to_i32 (width - (p_iwid p + p_fwid p + 4)) in
  (if dlt v dzero then lit "-" else lit " ") ++
  pad_r " "%char (p_iwid p) (put_int (p_int p)) ++
  (if (0 <? p_fwid p)%Z then lit "." ++ pad_l "0"%char (p_fwid p) (put_int (p_frac p)) else []) ++
  lit "e" ++
  (if (exp_val <? 0)%Z then lit "-" ++ pad_r " "%char 2 (put_int (- exp_val))
   else lit "+" ++ pad_r " "%char 2 (put_int exp_val)) ++
  repeat " "%char (Z.to_nat fill_wid).

(* Format.cxx 392-494: the text inserted by addF.  width and sd are unsigned
   ints, [sep] is Format::separator.  None: still looping after [fuel]
   iterations of one of the loops. *)
Definition addF_text (fuel : nat) (sep : ascii) (v : double) (fmt : ascii) (width sd : Z) : option (outcome str) :=
  let width := if (width =? 0)%Z then ((sd + 4) mod two32)%Z else width in
  if d_isnan v || d_isnan (dopp v) then Some (Ok (pad (lit "nan") width))
  else if d_isinf v then Some (Ok (pad (lit "inf") width))
  else
    let prec := stream_prec (to_i32 sd) in
    let field (s : str) := if (width =? 0)%Z then s else pad_r " "%char (to_i32 width) s in
    if Ascii.eqb fmt "f" then Some (Ok (field (put_fixed prec v)))
    else if Ascii.eqb fmt "s" then Some (Ok (field (put_sci prec v)))
    else if Ascii.eqb fmt "g" then Some (Ok (field (put_gen prec v)))
    else if Ascii.eqb fmt "e" then
      if deq v dzero then
        Some (Ok (lit "0" ++ [sep] ++ pad_r "0"%char (to_i32 (sd - 1)) (put_int 0) ++ lit "e0"))
      else
        match log1k fuel (dabs v) (to_i32 sd) with
        | None => None
        | Some (exp_val, av_norm) =>
          match fractionate fuel av_norm sd with
          | None => None
          | Some o => Some (do p <- o; Ok (eng_text v width exp_val p))
          end
        end
    else Some (Ok []).
(* Format.cxx 392-494 *)
Definition addF (fuel : nat) (sep : ascii) (f : fmt) (v : double) (fm : ascii) (width sd : Z) : option (outcome fmt) :=
  option_map (fun o => do t <- o; Ok (insertField f t)) (addF_text fuel sep v fm width sd).
