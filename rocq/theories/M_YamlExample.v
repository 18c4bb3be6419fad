(* M_YamlExample.v -- model of examples/PropertyTreeYamlExample.cxx, a program
   that uses SoDa::Options and SoDa::PropertyTreeYAML *)
From Verif Require Import Base M_Split M_Format M_Options M_PropertyTree M_OptionsExample.

(* How the process ends: by exit or by returning from main, or by
   std::terminate because of an exception that nobody catches.  The record run
   (M_OptionsExample) holds the exit code and the texts on std::cout and
   std::cerr. *)
Inductive prun := Ended (r : run) | Terminated (e : exn) (out err : str).

(* PropertyTreeYamlExample.cxx 11-26.  load is the file system as
   YAML::LoadFile sees it; nk is how yaml-cpp converts a null key. *)
Definition yx_main (nk : option str) (load : str -> load_result) (argv : list str) : outcome prun :=
  let cmd := newOptions false (fun _ => VInt 0) (fun _ => []) in
  do p <- parse_argv cmd (Z.of_nat (length argv)) argv;
  let (ok, s) := p in
  if negb ok || (numPosArgs s =? 0)%Z
  then Ok (Ended (mkRun (-1) [] (cerr s ++ lit "Missing input file name." ++ ["010"%char])))
  else
    do fname <- getPosArg s 0;
    match readFile nk new_tree (load fname) with
    | (_, Some e) => Ok (Terminated e [] (cerr s))
    | (h, None) =>
      do t <- dump h;
      Ok (Ended (mkRun 0 t (cerr s ++ repeat "010"%char 3 ++ lit "READY?" ++ repeat "010"%char 3)))
    end.
