(* S_FormatExt.v -- formatters as values: what a program means when a call
   chain works on the formatter it is written on. *)
From Verif Require Import Base M_FormatExt.

(* a formatter: its template, the values added since it was made or reset,
   whether its class extends Format, and whether it is `own': not a copy of,
   nor assigned from, another formatter of the extended class *)
Record pic := mkPic { p_tpl : str; p_vals : list str; p_ext : bool; p_own : bool }.

Definition seen (l : list (option pic)) (i : nat) : option pic :=
  match nth_error l i with Some (Some p) => Some p | _ => None end.
Fixpoint put_at {A} (l : list A) (i : nat) (a : A) : list A :=
  match l, i with
  | [], _ => []
  | _ :: r, O => a :: r
  | x :: r, S j => x :: put_at r j a
  end.

Definition add_value (vals : list str) (c : call) : list str :=
  match c with KAdd t => vals ++ [t] | KReset => [] end.
Definition starts_with_reset (cs : list call) : bool :=
  match cs with KReset :: _ => true | _ => false end.

(* None: a formatter is used before it is made or after its end *)
Definition value_step (l : list (option pic)) (s : stmt) : option (list (option pic)) :=
  match s with
  | MakeExt t => Some (l ++ [Some (mkPic t [] true true)])
  | MakePlain t => Some (l ++ [Some (mkPic t [] false true)])
  | CopyOf i => option_map (fun p => l ++ [Some (mkPic (p_tpl p) (p_vals p) (p_ext p) (negb (p_ext p)))]) (seen l i)
  | SliceOf i => option_map (fun p => l ++ [Some (mkPic (p_tpl p) (p_vals p) false true)]) (seen l i)
  | Assign i j =>
    match seen l i, seen l j with
    | Some p, Some q =>
      Some (put_at l i (Some (mkPic (p_tpl q) (p_vals q) (p_ext p)
                                    (if p_ext p && p_ext q then Nat.eqb i j && p_own p else p_own p))))
    | _, _ => None
    end
  | End i => option_map (fun _ => put_at l i None) (seen l i)
  | Chain i cs =>
    option_map (fun p => put_at l i (Some (mkPic (p_tpl p) (fold_left add_value cs (p_vals p)) (p_ext p) (p_own p))))
               (seen l i)
  end.
Fixpoint value_run (l : list (option pic)) (p : list stmt) : option (list (option pic)) :=
  match p with
  | [] => Some l
  | s :: r => match value_step l s with Some l' => value_run l' r | None => None end
  end.

(* calls are chained only on formatters that are `own', or after a reset *)
Definition careful_step (l : list (option pic)) (s : stmt) : bool :=
  match s with
  | Chain i cs => match seen l i with
                  | Some p => p_own p || starts_with_reset cs || (match cs with [] => true | _ => false end)
                  | None => false
                  end
  | _ => true
  end.
Fixpoint careful (l : list (option pic)) (p : list stmt) : bool :=
  match p with
  | [] => true
  | s :: r => careful_step l s &&
              match value_step l s with Some l' => careful l' r | None => false end
  end.
