(* M_Format.v -- model of src/Format.cxx, include/Format.hxx (templates,
   integer, string, character and boolean fields; addF is in M_FormatF.v). *)
From Verif Require Import Base M_Stream.

(* Format.hxx 525-534, FmtStringSeg: a LITERAL with its val, or a FMT_VAL
   with its idx (an unsigned int). *)
Inductive seg := SLit (val : str) | SVal (idx : N).

(* Format.hxx 536, 542, 548: the data members of Format. *)
Record fmt := mkFmt { f_segs : list seg; f_orig : str; f_cur : N }.

(* unsigned int arithmetic (Format.cxx 105, 547) *)
Definition u32 (n : N) : N := (n mod 4294967296)%N.

(* Format.cxx 65-69: scanner state *)
Inductive scan_state := NORM | SAW_PC | ACC_FLDNUM.
(* Format.cxx 66-69: s_state, cur_str, cur_fldnum, and the segments so far *)
Record scan := mkScan { sc_state : scan_state; sc_str : str; sc_fld : N; sc_segs : list seg }.

(* c == '%' (Format.cxx 73, 98, 111) *)
Definition is_pct (c : ascii) : bool := Ascii.eqb c "%"%char.

(* Format.cxx 70-126: one iteration of the character loop *)
Definition scan_step (im : ctype_impl) (sc : scan) (c : ascii) : outcome scan :=
  match sc_state sc with
  | NORM =>                                                       (* 72-80 *)
    if is_pct c then Ok (mkScan SAW_PC (sc_str sc) (sc_fld sc) (sc_segs sc))
    else Ok (mkScan NORM (sc_str sc ++ [c]) (sc_fld sc) (sc_segs sc))
  | SAW_PC =>                                                     (* 81-102 *)
    do d <- c_isdigit im c;
    if d then
      let '(st, sg) := match sc_str sc with
                       | [] => (sc_str sc, sc_segs sc)
                       | _ => ([], sc_segs sc ++ [SLit (sc_str sc)])
                       end in
      Ok (mkScan ACC_FLDNUM st (digit_val c) sg)
    else
      let s1 := sc_str sc ++ ["%"%char] in
      let s2 := if is_pct c then s1 else s1 ++ [c] in
      Ok (mkScan NORM s2 (sc_fld sc) (sc_segs sc))
  | ACC_FLDNUM =>                                                 (* 103-124 *)
    do d <- c_isdigit im c;
    if d then Ok (mkScan ACC_FLDNUM (sc_str sc) (u32 (sc_fld sc * 10 + digit_val c)) (sc_segs sc))
    else
      let sg := sc_segs sc ++ [SVal (sc_fld sc)] in
      if is_pct c then Ok (mkScan SAW_PC [] (sc_fld sc) sg)
      else Ok (mkScan NORM [c] (sc_fld sc) sg)
  end.

(* Format.cxx 70: for(auto c : fmt_string) *)
Fixpoint scan_all (im : ctype_impl) (sc : scan) (s : str) : outcome scan :=
  match s with
  | [] => Ok sc
  | c :: r => do sc' <- scan_step im sc c; scan_all im sc' r
  end.

(* Format.cxx 128-141: end of string *)
Definition push_nonempty (s : str) (sg : list seg) : list seg :=
  match s with [] => sg | _ => sg ++ [SLit s] end.
(* Format.cxx 128-141: what is left in each state *)
Definition scan_end (sc : scan) : list seg :=
  match sc_state sc with
  | SAW_PC => push_nonempty (sc_str sc ++ ["%"%char]) (sc_segs sc)
  | NORM => push_nonempty (sc_str sc) (sc_segs sc)
  | ACC_FLDNUM => sc_segs sc ++ [SVal (sc_fld sc)]
  end.

(* Format.cxx 62-142 *)
Definition initialScan (im : ctype_impl) (s : str) : outcome (list seg) :=
  do sc <- scan_all im (mkScan NORM [] 0%N []) s; Ok (scan_end sc).

(* Format.cxx 52-59 *)
Definition newFormat (im : ctype_impl) (s : str) : outcome fmt :=
  do sg <- initialScan im s; Ok (mkFmt sg s 0%N).

(* Format.cxx 539-548 *)
Definition fill_seg (cur : N) (s : str) (g : seg) : seg :=
  match g with
  | SVal idx => if (idx =? cur)%N then SLit s else g
  | SLit _ => g
  end.
(* Format.cxx 539-548 *)
Definition insertField (f : fmt) (s : str) : fmt :=
  mkFmt (map (fill_seg (f_cur f) s) (f_segs f)) (f_orig f) (u32 (f_cur f + 1)).

(* Format.cxx 551-555 *)
Definition reset (im : ctype_impl) (f : fmt) : outcome fmt :=
  do sg <- initialScan im (f_orig f); Ok (mkFmt sg (f_orig f) 0%N).

(* Format.cxx 562-572: the assembled string and the number of unfilled
   fields (an int; it would take 2^31 placeholders to overflow it, which is not modelled) *)
Fixpoint assemble (l : list seg) : str * nat :=
  match l with
  | [] => ([], 0)
  | SLit v :: r => let '(t, n) := assemble r in (v ++ t, n)
  | SVal k :: r => let '(t, n) := assemble r in (("%"%char :: put_dec k) ++ t, S n)
  end.

(* Format.hxx 480-482 *)
Definition badFormat_what (problem orig : str) : str :=
  problem ++ lit " Format string was " ++ ["010"%char; """"%char] ++ orig ++ [""""%char; "010"%char].

(* Format.cxx 558-579 *)
Definition fmt_str (f : fmt) (check : bool) : outcome str :=
  let '(ret, unfilled) := assemble (f_segs f) in
  if check && negb (Nat.eqb unfilled 0)
  then Throw (mkExn BadFormat
               (badFormat_what (lit "Unfilled argument string [" ++ ret ++ lit "]") (f_orig f)))
  else Ok ret.

(* ---------------- addX ---------------- *)

(* the default of sep and fill: '\0' (Format.hxx 302) *)
Definition nul : ascii := "000"%char.
(* sep == '\0' (Format.cxx 146, 149, 221) *)
Definition is_nul (c : ascii) : bool := Ascii.eqb c nul.

(* Format.cxx 163-171: the grouping loop of addI over the reversed numeral *)
Fixpoint addI_group (sep : ascii) (vrev : str) (i : nat) (newstr : str) : str :=
  match vrev with
  | [] => newstr
  | c :: r =>
    let '(i1, n1) := if Nat.eqb i 3 then (0, sep :: newstr) else (i, newstr) in
    addI_group sep r (S i1) (c :: n1)
  end.

(* Format.cxx 144-178: the text inserted by addI.  v is an int, w an unsigned
   int passed to std::setw(int).  The stream's default fill is a space. *)
Definition addI_text (v w : Z) (sep fill : ascii) : str :=
  let fc := if is_nul fill then " "%char else fill in
  let body := if is_nul sep then put_int v
              else addI_group sep (rev (put_int v)) 0 [] in
  if (w =? 0)%Z then body else pad_l fc (to_i32 w) body.
(* Format.cxx 144-178 *)
Definition addI (f : fmt) (v w : Z) (sep fill : ascii) : fmt :=
  insertField f (addI_text v w sep fill).

(* Format.cxx 256-269 *)
Definition toHex (v : N) (width : Z) (up : bool) : str :=
  lit "0x" ++ pad_l "0"%char width (put_hex up v).
(* Format.cxx 271-279 *)
Definition toOct (v : N) (width : Z) : str := pad_l "0"%char width (put_oct_base v).

(* the number formats of addU (Format.cxx 195-219) *)
Inductive radix := RHex (up : bool) | ROct | RDec.
(* Format.cxx 195-219: the switch on fmt *)
Definition radix_of (fmt : ascii) : radix :=
  if Ascii.eqb fmt "x" || Ascii.eqb fmt "h" then RHex false
  else if Ascii.eqb fmt "X" || Ascii.eqb fmt "H" then RHex true
  else if Ascii.eqb fmt "o" || Ascii.eqb fmt "O" then ROct
  else RDec.

(* Format.cxx 239-247: the grouping loop of addU.  i, cc: int; i == group_count
   compares as unsigned int. *)
Fixpoint addU_group (sep : ascii) (gc : Z) (sep_lim : Z) (vrev : str) (i cc : Z) (newstr : str) : str :=
  match vrev with
  | [] => newstr
  | c :: r =>
    let '(i1, n1) := if ((i =? gc) && (cc <? sep_lim))%Z then (0%Z, sep :: newstr) else (i, newstr) in
    addU_group sep gc sep_lim r (i1 + 1)%Z (cc + 1)%Z (c :: n1)
  end.

(* Format.cxx 183-252: the text inserted by addU *)
Definition addU_valstr (v : N) (fmt : ascii) (w : Z) : str :=
  match radix_of fmt with
  | RHex up => toHex v (to_i32 w) up
  | ROct => toOct v (to_i32 w)
  | RDec => if (w =? 0)%Z then put_dec v else pad_l " "%char (to_i32 w) (put_dec v)
  end.
(* Format.cxx 221-250: the text after grouping *)
Definition addU_text (v : N) (fmt : ascii) (w : Z) (sep : ascii) (gc : Z) : str :=
  let valstr := addU_valstr v fmt w in
  if is_nul sep then valstr
  else
    let lim := match radix_of fmt with
               | RHex _ => to_i32 (Z.of_nat (length valstr)) - 2
               | ROct => to_i32 (Z.of_nat (length valstr)) - 1
               | RDec => to_i32 (Z.of_nat (length valstr))
               end%Z in
    addU_group sep gc lim (rev valstr) 0 0 [].
(* Format.cxx 183-252 *)
Definition addU (f : fmt) (v : N) (fm : ascii) (w : Z) (sep : ascii) (gc : Z) : fmt :=
  insertField f (addU_text v fm w sep gc).

(* Format.cxx 496-522: the text inserted by addS.  width is an int; negating
   INT_MIN overflows.  spaces: size_t arithmetic converted to int. *)
Definition addS_text (v : str) (width : Z) : outcome str :=
  if (width <? 0)%Z then
    if (width =? - two31)%Z then UB
    else Ok (v ++ repeat " "%char (Z.to_nat (to_i32 (to_u64 (- width - Z.of_nat (length v))))))
  else if (0 <? width)%Z then
    Ok (repeat " "%char (Z.to_nat (to_i32 (to_u64 (width - Z.of_nat (length v))))) ++ v)
  else Ok v.
(* Format.cxx 496-522 *)
Definition addS (f : fmt) (v : str) (width : Z) : outcome fmt :=
  do t <- addS_text v width; Ok (insertField f t).

(* Format.cxx 524-529, 531-536 *)
Definition addC_text (c : ascii) : str := [c].
(* Format.cxx 524-529 *)
Definition addC (f : fmt) (c : ascii) : fmt := insertField f (addC_text c).
(* Format.cxx 533 *)
Definition addB_text (b : bool) : str := if b then lit "T" else lit "F".
(* Format.cxx 531-536 *)
Definition addB (f : fmt) (b : bool) : fmt := insertField f (addB_text b).

(* Format.hxx 585-615: Format_ext<T> wrappers.  addI has no fill parameter;
   addU takes an unsigned int, so a wider argument is converted modulo 2^32. *)
Definition ext_addI (f : fmt) (v w : Z) (sep : ascii) : fmt := addI f v w sep nul.
(* Format.hxx 590-595 *)
Definition ext_addU (f : fmt) (v : N) (fm : ascii) (w : Z) (sep : ascii) (gc : Z) : fmt :=
  addU f (u32 v) fm w sep gc.
(* Format.hxx 602-605 *)
Definition ext_addS (f : fmt) (v : str) (w : Z) : outcome fmt := addS f v w.
(* Format.hxx 607-610 *)
Definition ext_addC (f : fmt) (c : ascii) : fmt := addC f c.
(* Format.hxx 612-615 *)
Definition ext_addB (f : fmt) (b : bool) : fmt := addB f b.

(* a history of calls on one Format object (Format.hxx 302-471): each addX inserts some text *)
Inductive fop := FAdd (t : str) | FReset.
(* one of them (144-178, 183-252, 392-536: each ends in insertField; 551-555: reset) *)
Definition run_op (im : ctype_impl) (f : fmt) (o : fop) : outcome fmt :=
  match o with FAdd t => Ok (insertField f t) | FReset => reset im f end.
(* all of them in order (bookkeeping) *)
Fixpoint run_ops (im : ctype_impl) (f : fmt) (ops : list fop) : outcome fmt :=
  match ops with
  | [] => Ok f
  | o :: r => do g <- run_op im f o; run_ops im g r
  end.
