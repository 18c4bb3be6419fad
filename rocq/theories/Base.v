(* Base.v -- shared vocabulary: strings as byte lists, outcomes, C integer
   conversions, <cctype> in the "C" locale. *)
From Coq Require Export List Arith NArith ZArith Lia Bool Ascii.
From Coq Require Export ZifyBool ZifyNat ZifyN.
From Coq Require String.
Export ListNotations.
Export String.StringSyntax.
Delimit Scope string_scope with string.

(* std::string: a sequence of bytes; char: a byte. *)
Notation str := (list ascii).

(* String literals of the source text. *)
Definition lit (s : String.string) : str := String.list_ascii_of_string s.
Arguments lit s%string.

(* Exception classes thrown by the library. *)
Inductive exn_class :=
| BadFormat            (* Format.hxx 471 *)
| BadOptValue          (* Options.hxx 165 *)
| BadOptionName        (* Options.hxx 151 *)
| MissingSubscriber    (* MailBox.hxx 185 *)
| SubscriptionMismatch (* MailBox.hxx 192 *)
| BadConversion        (* MailBox.hxx 201 *)
| BarrierTimeout       (* Barrier.hxx 176 *)
| BarrierCorrupt       (* Barrier.hxx 195 *)
| PropertyNotFound     (* PropertyTree.hxx 226 *)
| BadPropertyType      (* PropertyTree.hxx 231 *)
| FileNotFound         (* PropertyTree.hxx 258 *)
| YamlInvalidNode      (* thrown by yaml-cpp, not by this library *)
| YamlBadConversion    (* thrown by yaml-cpp, not by this library *)
| Foreign (n : nat).   (* any other class, thrown by the program's own functions *)

(* An exception in flight: its class and its what() text. *)
Record exn := mkExn { ex_class : exn_class; ex_what : str }.

(* Result of running a C++ function: a normal return, an exception, or
   undefined behaviour.  UB is absorbing. *)
Inductive outcome (A : Type) : Type :=
| Ok (a : A)
| Throw (e : exn)
| UB.
Arguments Ok {A} a.
Arguments Throw {A} e.
Arguments UB {A}.

Lemma Ok_inj {A} (a b : A) : Ok a = Ok b -> a = b.
Proof. intros [=]; assumption. Qed.

(* sequencing: an exception or undefined behaviour ends the function (C++; no line of /repo) *)
Definition obind {A B} (m : outcome A) (f : A -> outcome B) : outcome B :=
  match m with Ok a => f a | Throw e => Throw e | UB => UB end.
Notation "'do' x <- m ; k" := (obind m (fun x => k))
  (at level 200, x pattern, m at level 100, k at level 200).

(* C++ integer conversions. *)
Definition two32 : Z := 4294967296%Z.            (* 2^32 *)
Definition two31 : Z := 2147483648%Z.            (* 2^31 *)
Definition two64 : Z := 18446744073709551616%Z.  (* 2^64 *)
Definition two63 : Z := 9223372036854775808%Z.   (* 2^63 *)

(* conversion to unsigned int / unsigned long (size_t): modulo 2^n *)
Definition to_u32 (z : Z) : Z := (z mod two32)%Z.
(* as in Barrier.hxx 182, Format.cxx 502, Options.cxx 81 *)
Definition to_u64 (z : Z) : Z := (z mod two64)%Z.
(* conversion to int / long: two's complement (what g++ and clang define), as in
   Format.cxx 151, 365, 502 *)
Definition to_i32 (z : Z) : Z :=
  (let m := z mod two32 in if m <? two31 then m else m - two32)%Z.
(* as in Barrier.cxx 45 *)
Definition to_i64 (z : Z) : Z :=
  (let m := z mod two64 in if m <? two63 then m else m - two64)%Z.

(* the range of int (C++, LP64; no line of /repo) *)
Definition in_i32 (z : Z) : bool := ((- two31 <=? z) && (z <? two31))%Z.
(* the range of long (C++, LP64; no line of /repo) *)
Definition in_i64 (z : Z) : bool := ((- two63 <=? z) && (z <? two63))%Z.

(* <cctype> on a plain char.  isdigit(c)/isspace(c) with c negative (a byte
   >= 128 where char is signed) is undefined by the C standard; glibc's tables
   answer "no".  The platform is a parameter. *)
Inductive ctype_impl := Strict | Glibc.

(* a negative char on the platforms considered (C++; no line of /repo) *)
Definition high_byte (c : ascii) : bool := (128 <=? N_of_ascii c)%N.

(* '0' to '9', what isdigit accepts (Format.cxx 83, 104) *)
Definition digit_byte (c : ascii) : bool :=
  ((48 <=? N_of_ascii c) && (N_of_ascii c <=? 57))%N.
(* space, \t \n \v \f \r: what isspace accepts (Options.cxx 101) *)
Definition space_byte (c : ascii) : bool :=
  let n := N_of_ascii c in ((n =? 32) || ((9 <=? n) && (n <=? 13)))%N.

(* isdigit(c), as called in Format.cxx 83 and 104 *)
Definition c_isdigit (im : ctype_impl) (c : ascii) : outcome bool :=
  match im with
  | Strict => if high_byte c then UB else Ok (digit_byte c)
  | Glibc => Ok (digit_byte c)
  end.
(* isspace(c), as called in Options.cxx 101 *)
Definition c_isspace (im : ctype_impl) (c : ascii) : outcome bool :=
  match im with
  | Strict => if high_byte c then UB else Ok (space_byte c)
  | Glibc => Ok (space_byte c)
  end.

(* c - '0' (Format.cxx 92, 105) *)
Definition digit_val (c : ascii) : N := (N_of_ascii c - 48)%N.
(* '0' + n (C++ library; no line of /repo) *)
Definition digit_char (n : N) : ascii := ascii_of_N (48 + n).

(* toupper on an unsigned char in the "C" locale (Options.hxx 513) *)
Definition to_upper (c : ascii) : ascii :=
  let n := N_of_ascii c in
  if ((97 <=? n) && (n <=? 122))%N then ascii_of_N (n - 32) else c.

(* std::string comparison: lexicographic on unsigned bytes
   (char_traits<char>::lt), used by std::map<std::string,...>
   (Options.hxx 653, PropertyTree.hxx 154). *)
Fixpoint str_compare (a b : str) : comparison :=
  match a, b with
  | [], [] => Eq
  | [], _ :: _ => Lt
  | _ :: _, [] => Gt
  | x :: a', y :: b' =>
    match N.compare (N_of_ascii x) (N_of_ascii y) with
    | Eq => str_compare a' b'
    | c => c
    end
  end.

(* operator== on std::string (C++ library), as in Options.cxx 223, Options.hxx 518 *)
Fixpoint str_eqb (a b : str) : bool :=
  match a, b with
  | [], [] => true
  | x :: a', y :: b' => Ascii.eqb x y && str_eqb a' b'
  | _, _ => false
  end.

(* std::map as an association list sorted by the key order. *)
Section SMap.
  Context {K V : Type} (cmp : K -> K -> comparison).
  (* m[k] = v (Options.cxx 291-292, MailBox.hxx 313, PropertyTreeYAML.cxx 76) *)
  Fixpoint smap_insert (k : K) (v : V) (m : list (K * V)) : list (K * V) :=
    match m with
    | [] => [(k, v)]
    | (k', v') :: r =>
      match cmp k k' with
      | Lt => (k, v) :: m
      | Eq => (k, v) :: r
      | Gt => (k', v') :: smap_insert k v r
      end
    end.
  (* m.find(k), m.count(k) (Options.cxx 259, MailBox.hxx 428, PropertyTree.cxx 75) *)
  Fixpoint smap_find (k : K) (m : list (K * V)) : option V :=
    match m with
    | [] => None
    | (k', v') :: r => match cmp k k' with Eq => Some v' | _ => smap_find k r end
    end.
  (* m.erase(k) (MailBox.hxx 416) *)
  Fixpoint smap_erase (k : K) (m : list (K * V)) : list (K * V) :=
    match m with
    | [] => []
    | (k', v') :: r =>
      match cmp k k' with Eq => r | _ => (k', v') :: smap_erase k r end
    end.
End SMap.
