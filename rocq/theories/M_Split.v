(* M_Split.v -- model of src/Split.cxx *)
From Verif Require Import Base.

(* std::string::find(c, pos): least index >= pos holding a character
   satisfying p, None for npos.  Serves find(' ',pos) (Split.cxx 51) and
   find_first_of(delims,pos) (Split.cxx 71). *)
Fixpoint find_at (p : ascii -> bool) (s : str) (i : nat) : option nat :=
  match s with
  | [] => None
  | c :: r => if p c then Some i else find_at p r (S i)
  end.
(* the same from position pos on (Split.cxx 51, 71) *)
Definition find_from (p : ascii -> bool) (s : str) (pos : nat) : option nat :=
  find_at p (skipn pos s) pos.

(* std::string::erase(pos, 1) for pos < size (Split.cxx 53) *)
Definition erase1 (s : str) (pos : nat) : str := firstn pos s ++ skipn (S pos) s.

(* c == ' ' (Split.cxx 48-52) *)
Definition is_sp (c : ascii) : bool := Ascii.eqb c " "%char.

(* Split.cxx 48:  while(ret.front() == ' ') ret.erase(0, 1);
   front() of an empty string is undefined. *)
Fixpoint trim_front (ret : str) : outcome str :=
  match ret with
  | [] => UB
  | c :: r => if is_sp c then trim_front r else Ok ret
  end.

(* Split.cxx 49:  while(ret.back() == ' ') ret.pop_back();
   back() of an empty string is undefined.  [rret] is ret reversed. *)
Fixpoint trim_back_rev (rret : str) : outcome str :=
  match rret with
  | [] => UB
  | c :: r => if is_sp c then trim_back_rev r else Ok rret
  end.
(* Split.cxx 49 *)
Definition trim_back (ret : str) : outcome str :=
  do r <- trim_back_rev (rev ret); Ok (rev r).

(* Split.cxx 51-58: the squeeze loop on (ret, pos).  Fuel counts iterations;
   None means out of fuel.  [ret.length() - 1] cannot wrap: pos was found, so
   the string is not empty. *)
Fixpoint squash_loop (fuel : nat) (ret : str) (pos : nat) : option str :=
  match fuel with
  | O => None
  | S f =>
    match find_from is_sp ret pos with
    | None => Some ret
    | Some p =>
      if (p <? length ret - 1) && is_sp (nth (S p) ret "000"%char)
      then squash_loop f (erase1 ret p) p
      else squash_loop f ret (S p)
    end
  end.

(* Split.cxx 42-61.  The loop runs at most length+1 times
   (L_Split.squash_loop_ok), so the None branch is never taken. *)
Definition squashSpaces (s : str) : outcome str :=
  do r1 <- trim_front s;
  do r2 <- trim_back r1;
  match squash_loop (S (length r2)) r2 0 with
  | Some r => Ok r
  | None => UB
  end.

(* std::string::substr(pos, n) for pos <= size (Split.cxx 72, 84) *)
Definition substr (s : str) (pos n : nat) : str := firstn n (skipn pos s).

(* c is one of delims (Split.cxx 71) *)
Definition mem_char (c : ascii) (l : str) : bool := existsb (Ascii.eqb c) l.

(* Split.cxx 71-85: the scan loop on (ret, old_pos). *)
Fixpoint split_loop (fuel : nat) (wrk delims : str) (no_empty : bool)
         (ret : list str) (old_pos : nat) : option (list str) :=
  match fuel with
  | O => None
  | S f =>
    match find_from (fun c => mem_char c delims) wrk old_pos with
    | None =>
      Some (if old_pos <? length wrk then ret ++ [skipn old_pos wrk] else ret)
    | Some pos =>
      let tkn := substr wrk old_pos (pos - old_pos) in
      let ret' := if no_empty && (length tkn =? 0) then ret else ret ++ [tkn] in
      split_loop f wrk delims no_empty ret' (S pos)
    end
  end.

(* Split.cxx 63-88.  At most length+1 iterations (L_Split.split_loop_ok). *)
Definition split (s delims : str) (no_empty : bool) : outcome (list str) :=
  do wrk <- squashSpaces s;
  match split_loop (S (length wrk)) wrk delims no_empty [] 0 with
  | Some l => Ok l
  | None => UB
  end.

(* Split.cxx 90-100: push_back each element of the list onto a vector *)
Definition splitVec (s delims : str) (no_empty : bool) : outcome (list str) :=
  do tres <- split s delims no_empty;
  Ok (fold_left (fun ret x => ret ++ [x]) tres []).
