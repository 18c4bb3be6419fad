(* T_Repo.v -- the model run on the inputs of the repository's own tests, with
   the outputs those tests demand.  These check the transcription; they are not
   property theorems. *)
From Coq Require Import String.
From Verif Require Import Base M_Split M_Format M_Float M_FormatF M_Options M_PropertyTree S_PropertyTree.
From Flocq Require Import IEEE754.BinarySingleNaN.
Open Scope list_scope.

(* test/FormatHexTest.cxx 6-74: expected text, v, w *)
Definition testFmt (fmt sep : ascii) (e : string * N * Z) : bool :=
  let '(pat, v, w) := e in
  match (do f <- newFormat Glibc (lit "%0"); fmt_str (addU f v fmt w sep 4) true) with
  | Ok res => str_eqb res (lit pat)
  | _ => false
  end.
Example hex_check_map : forallb (testFmt "X" nul)
  [("0x0", 0%N, 0%Z); ("0x000", 0%N, 3%Z); ("0x0000", 0%N, 4%Z); ("0x100", 256%N, 0%Z); ("0x0100", 256%N, 4%Z);
   ("0x00000100", 256%N, 8%Z); ("0x0000000000000100", 256%N, 16%Z)]%string = true.
Proof. vm_compute. reflexivity. Qed.
Example under_check_map : forallb (testFmt "X" "_")
  [("0x0", 0%N, 0%Z); ("0x000", 0%N, 3%Z); ("0x100", 256%N, 0%Z); ("0x0100", 256%N, 4%Z);
   ("0x0000_0100", 256%N, 8%Z); ("0x0000_0000_0000_0100", 256%N, 16%Z)]%string = true.
Proof. vm_compute. reflexivity. Qed.
Example dec_check_map : forallb (testFmt nul nul)
  [("0", 0%N, 0%Z); ("  0", 0%N, 3%Z); ("100", 100%N, 0%Z); (" 100", 100%N, 4%Z); ("     100", 100%N, 8%Z);
   ("             100", 100%N, 16%Z)]%string = true.
Proof. vm_compute. reflexivity. Qed.
Example oct_check_map : forallb (testFmt "o" nul)
  [("0", 0%N, 0%Z); ("000", 0%N, 3%Z); ("0137", 95%N, 0%Z); ("0137", 95%N, 4%Z); ("00000137", 95%N, 8%Z);
   ("0000000000000137", 95%N, 16%Z)]%string = true.
Proof. vm_compute. reflexivity. Qed.

(* test/FormatTest.cxx 94-122 *)
Example bool_test :
  (do f <- newFormat Glibc (lit "%0"); fmt_str (addB f true) true) = Ok (lit "T") /\
  (do f <- newFormat Glibc (lit "%0"); fmt_str (addB f false) true) = Ok (lit "F").
Proof. split; vm_compute; reflexivity. Qed.
Example adjacent_markers :
  (do f <- newFormat Glibc (lit "Testing adjacent markers [%0%1] should be [foobar]");
   do f <- addS f (lit "foo") 0; do f <- addS f (lit "bar") 0; fmt_str f true) =
  Ok (lit "Testing adjacent markers [foobar] should be [foobar]").
Proof. vm_compute. reflexivity. Qed.
Example check_str :
  (do f <- newFormat Glibc (lit "%0 %1 %2 %3");
   fmt_str (addI (addI (addI (addI f 33 5 nul "0") 44444 7 "," "0") 55555 7 "," nul) 66666 7 nul nul) true) =
  Ok (lit "00033 044,444  55,555   66666").
Proof. vm_compute. reflexivity. Qed.

(* test/FormatNaN.cxx 12-18: 1.0, 1.0/0.0, sqrt(-1.0) *)
Example format_nan :
  option_map (fun o => do t <- o; Ok t)
    (match newFormat Glibc (lit "ok %0 inf %1 nan %2") with
     | Ok f => match addF 501 "." f (B754_finite (prec:=53) (emax:=1024) false 4503599627370496 (-52) eq_refl) "f" 6 6 with
               | Some (Ok f1) => match addF 501 "." f1 (B754_infinity false) "f" 4 6 with
                                 | Some (Ok f2) => match addF 501 "." f2 B754_nan "f" 4 6 with
                                                   | Some (Ok f3) => Some (fmt_str f3 true)
                                                   | _ => None
                                                   end
                                 | _ => None
                                 end
               | _ => None
               end
     | _ => None
     end) = Some (Ok (lit "ok 1.000000 inf inf  nan nan ")).
Proof. vm_compute. reflexivity. Qed.

(* test/SplitTest.cxx 4-14 *)
Example comma_test :
  split (lit "this,that,the other thing") (lit ",") false = Ok [lit "this"; lit "that"; lit "the other thing"].
Proof. vm_compute. reflexivity. Qed.

(* test/OptionsTest.cxx 105-118: targets 0 pres, 1 boo, 2 sint, 3 uint, 4 fva0, 5 fva1,
   6 sva, 7 s-ind; lists 0 sla, 1 ala.  The initial contents of the variables
   do not matter. *)
Definition always (v : val) : bool := true.
Definition test_cmd : st :=
  let s := newOptions false (fun _ => VInt 0) (fun _ => []) in
  let s := addP s 0 (lit "pres") "p" [] in
  let s := add_nodef s ty_bool 1 (lit "boo") "b" [] always [] in
  let s := add_nodef s ty_int 2 (lit "sint") "I" [] always [] in
  let s := add_nodef s ty_int 3 (lit "uint") "U" [] always [] in
  let s := add_nodef s ty_float 4 (lit "fva0") "f" [] always [] in
  let s := add_nodef s ty_float 5 (lit "fva1") "F" [] always [] in
  let s := add_nodef s ty_string 6 (lit "sva") "s" [] always [] in
  let s := add_nodef s ty_string 7 (lit "s-ind") "c" [] always [] in
  let s := addV s ty_string 0 (lit "sla") "l" [] always [] in
  addV s ty_int 1 (lit "ala") "L" [] always [].
(* a float as mantissa and exponent *)
Definition fl (v : val) : option (bool * positive * Z) :=
  match v with VFloat (B754_finite b m e _) => Some (b, m, e) | _ => None end.
(* 18-37: the three words come after the options (list::merge compares heads) *)
Example testPosArgs :
  match parse_list test_cmd
    (map lit ["--sint"; "-3"; "--uint"; "3"; "--fva0"; "-1.1"; "--fva1"; "1.1";
              "--sva"; """--this is a test"""; "--s-ind"; "'--args=""type=b200,serial=c00ld00d""'";
              "po0"; "po1"; "po2"]%string) with
  | Ok (b, s) => Some (b, mem s 2, mem s 3, fl (mem s 4), fl (mem s 5), mem s 6, mem s 7, numPosArgs s, getPosArgs s)
  | _ => None
  end = Some (true, VInt (-3), VInt 3,
              (* 1.1f is 9227469 * 2^-23 *)
              Some (true, 9227469%positive, (-23)%Z), Some (false, 9227469%positive, (-23)%Z),
              VStr (lit """--this is a test"""), VStr (lit "'--args=""type=b200,serial=c00ld00d""'"),
              3%Z, [lit "po0"; lit "po1"; lit "po2"]).
Proof. vm_compute. reflexivity. Qed.

(* test/PropertyTreeYAML_Test.cxx 12-28 on test/test1.yaml *)
Definition test1 : ynode :=
  let guy k v := (YScalar (lit k), YScalar (lit v)) in
  YMap [(YScalar (lit "FLINTSTONE"), YMap [guy "FRED" "guy"; guy "WILMA" "gal"; guy "PEBBLES" "girl"]%string);
        (YScalar (lit "RUBBLE"), YMap [guy "BARNEY" "guy"; guy "BETTY" "gal"; guy "BAMBAM" "boy"]%string);
        (YScalar (lit "NUMBERS"), YSeq [YScalar (lit "1"); YScalar (lit "2"); YScalar (lit "3")])].
Example dump_test1 : dump (tree None [Loaded test1]) = Ok (concat (map (fun l => lit l ++ nl)
  ["<<<PROPLIST>>>"; "1"; "2"; "3";
   "<<<DICTIONARY>>>";
   "FLINTSTONE:  "; "<<<DICTIONARY>>>"; "  FRED:  guy"; "  PEBBLES:  girl"; "  WILMA:  gal";
   "RUBBLE:  "; "<<<DICTIONARY>>>"; "  BAMBAM:  boy"; "  BARNEY:  guy"; "  BETTY:  gal"]%string)).
Proof. vm_compute. reflexivity. Qed.
