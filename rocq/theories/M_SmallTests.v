(* M_SmallTests.v -- the test programs test/SplitTest.cxx and
   test/FormatHexTest.cxx.  Each is a function of the library members it calls,
   so that one can ask what its success tells about them.  The messages on
   std::cerr other than PASS and FAIL are left out. *)
From Verif Require Import Base M_Stream M_Split M_Format.

(* ---- SplitTest ---- *)
(* SplitTest.cxx 4 *)
Definition comma_test : str := lit "this,that,the other thing".
(* SplitTest.cxx 5 *)
Definition comma_ref : list str := [lit "this"; lit "that"; lit "the other thing"].

(* SplitTest.cxx 16-21: i goes over comma_ref; sv[i] beyond the end is undefined *)
Fixpoint check_vec (ref sv : list str) (pass : bool) : outcome bool :=
  match ref, sv with
  | [], _ => Ok pass
  | _ :: _, [] => UB
  | r :: ref', s :: sv' => check_vec ref' sv' (if str_eqb s r then pass else false)
  end.
(* SplitTest.cxx 22-29: over the elements of sl; comma_ref[i] beyond the end is
   undefined *)
Fixpoint check_list (sl ref : list str) (pass : bool) : outcome bool :=
  match sl, ref with
  | [], _ => Ok pass
  | _ :: _, [] => UB
  | s :: sl', r :: ref' => check_list sl' ref' (if str_eqb s r then pass else false)
  end.
(* SplitTest.cxx 8-37 with the results of splitVec and split (10-11): true for
   PASS, false for FAIL.  An exception of either ends the program. *)
Definition split_test (vec lst : str -> str -> outcome (list str)) : outcome bool :=
  do sv <- vec comma_test (lit ",");
  do sl <- lst comma_test (lit ",");
  do pass <- check_vec comma_ref sv true;
  check_list sl comma_ref pass.

(* ---- FormatHexTest ---- *)
(* a line { pat, { v, w } } of a table (FormatHexTest.cxx 24-59) *)
Definition row : Type := str * (N * Z).
(* std::map built from an initializer list: sorted by key, and a line whose key
   is there already is left out (FormatHexTest.cxx 24, 34, 42, 52) *)
Definition map_of (l : list row) : list row :=
  fold_left (fun m e => match smap_find str_compare (fst e) m with
                        | Some _ => m
                        | None => smap_insert str_compare (fst e) (snd e) m
                        end) l [].
(* FormatHexTest.cxx 24-32 *)
Definition hex_lines : list row :=
  [(lit "0x0", (0%N, 0%Z)); (lit "0x000", (0%N, 3%Z)); (lit "0x0000", (0%N, 4%Z)); (lit "0x100", (256%N, 0%Z));
   (lit "0x0100", (256%N, 4%Z)); (lit "0x00000100", (256%N, 8%Z)); (lit "0x0000000000000100", (256%N, 16%Z))].
(* FormatHexTest.cxx 34-41 *)
Definition dec_lines : list row :=
  [(lit "0", (0%N, 0%Z)); (lit "  0", (0%N, 3%Z)); (lit "100", (100%N, 0%Z)); (lit " 100", (100%N, 4%Z));
   (lit "     100", (100%N, 8%Z)); (lit "             100", (100%N, 16%Z))].
(* FormatHexTest.cxx 42-49: 0137 is 95 *)
Definition oct_lines : list row :=
  [(lit "0", (0%N, 0%Z)); (lit "000", (0%N, 3%Z)); (lit "0137", (95%N, 0%Z)); (lit "0137", (95%N, 4%Z));
   (lit "00000137", (95%N, 8%Z)); (lit "0000000000000137", (95%N, 16%Z))].
(* FormatHexTest.cxx 52-59 *)
Definition under_lines : list row :=
  [(lit "0x0", (0%N, 0%Z)); (lit "0x000", (0%N, 3%Z)); (lit "0x100", (256%N, 0%Z)); (lit "0x0100", (256%N, 4%Z));
   (lit "0x0000_0100", (256%N, 8%Z)); (lit "0x0000_0000_0000_0100", (256%N, 16%Z))].

(* SoDa::Format("%0").addU(v, fmt, w, sep).str() as a function of v, fmt, w, sep
   (FormatHexTest.cxx 7; Format.hxx 329-332: group_count is 4) *)
Definition printer := N -> ascii -> Z -> ascii -> outcome str.
(* FormatHexTest.cxx 7 with the library's addU (Format.cxx 183-252) *)
Definition lib_printer : printer := fun v fm w sep =>
  do f <- newFormat Glibc (lit "%0"); fmt_str (addU f v fm w sep 4) true.
(* FormatHexTest.cxx 6-20 *)
Definition test_fmt (p : printer) (v : N) (w : Z) (fm : ascii) (pat : str) (sep : ascii) : outcome bool :=
  do res <- p v fm w sep; Ok (str_eqb res pat).
(* FormatHexTest.cxx 62-64 and the like: && does not call testFmt after a failure *)
Fixpoint check_map (p : printer) (fm sep : ascii) (m : list row) (all_ok : bool) : outcome bool :=
  match m with
  | [] => Ok all_ok
  | (pat, (v, w)) :: r =>
    do b <- (if all_ok then test_fmt p v w fm pat sep else Ok false);
    check_map p fm sep r b
  end.
(* FormatHexTest.cxx 21-77: the exit code *)
Definition hex_main (p : printer) : outcome Z :=
  do b <- check_map p "X" nul (map_of hex_lines) true;
  do b <- check_map p "X" "_" (map_of under_lines) b;
  do b <- check_map p nul nul (map_of dec_lines) b;
  do b <- check_map p "o" nul (map_of oct_lines) b;
  Ok (if b then 0%Z else (-1)%Z).
