(** Model of scripts/bundle_code_gen.py.

    Text is Coq's [string].  Simplifications: the two import lines and the class header in front of the
    class body (line 26) and the final "bundle = ..." line (90, 126, 158) are not represented, only the class
    body; the nested while loops (31-56) are one recursion over the names, with the state code_line and
    current_width; re.search is an argument that gives the groups of a match. *)
From Coq Require Import List String Ascii Arith Bool Decimal DecimalString.
From Verif Require Import Py.
Import ListNotations.
Open Scope string_scope.

Definition tab : string := String "009"%char "".
Definition nl : string := String "010"%char "".
Definition bslash : string := "\".

(** bundle_code_gen.py:21-24: end_code. *)
Definition dec (n : nat) : string := NilEmpty.string_of_uint (Nat.to_uint n).
Definition end_code (n : nat) : string :=
  if Nat.eqb n 0 then " = Signal()" else " = Signals(" ++ dec n ++ ")".

(** code_line[:-2] and end_code[1:] (bundle_code_gen.py:46, 52). *)
Definition drop_last2 (s : string) : string := substring 0 (length s - 2) s.
Definition tail1 (s : string) : string := match s with EmptyString => EmptyString | String _ t => t end.

(** bundle_code_gen.py:38-56: the loop once code_line and current_width hold the first name of a line. *)
Fixpoint fill (max_width : nat) (ec : string) (names : list string) (line : string) (width : nat) : string :=
  match names with
  | [] =>
      let line := drop_last2 line in
      let width := width - 3 in
      if Nat.leb (width + length ec) max_width then line ++ ec ++ nl
      else line ++ " " ++ bslash ++ nl ++ tab ++ tail1 ec ++ nl
  | x :: t =>
      if Nat.leb (width + length x + 2) max_width
      then fill max_width ec t (line ++ x ++ ", ") (width + (length x + 2))
      else line ++ bslash ++ nl ++ fill max_width ec t (tab ++ x ++ ", ") (4 + length x + 2 + 1)
  end.

(** bundle_code_gen.py:6-58 [__gen_bundle_code]: the class body. *)
Definition gen_body (max_width : nat) (names : list string) : string :=
  match names with
  | [] => ""
  | x :: t => fill max_width (end_code (List.length names)) t (tab ++ x ++ ", ") (4 + length x + 2 + 1)
  end.

(** list.sort on strings (bundle_code_gen.py:84, 120, 152): insertion sort by code points. *)
Fixpoint insert (x : string) (l : list string) : list string :=
  match l with
  | [] => [x]
  | y :: t => if String.leb x y then x :: l else y :: insert x t
  end.
Definition sort (l : list string) : list string := fold_right insert [] l.

(** name[len(prefix):] *)
Definition drop (n : nat) (s : string) : string := substring n (length s - n) s.

(** bundle_code_gen.py:77-82: the selection by prefix, before sorting. *)
Definition select_prefix (prefix : string) (dut : list string) : list string :=
  flat_map (fun name => if String.prefix prefix name then [drop (length prefix) name] else []) dut.

(** bundle_code_gen.py:109-118: the selection by regex, before sorting. *)
Definition select_regex (search : string -> option (list (option string))) (dut : list string) : list string :=
  flat_map (fun name => match search name with
                        | None => []
                        | Some groups => [String.concat "" (map (fun g => match g with None => "" | Some x => x end) groups)]
                        end) dut.

(** bundle_code_gen.py:145-150: the selection by dictionary, before sorting. *)
Definition select_dict (d : list (string * string)) (dut : list string) : list string :=
  flat_map (fun kv => if existsb (String.eqb (snd kv)) dut then [fst kv] else []) d.

(** bundle_code_gen.py:84-88, 120-124, 152-156: sort, assert that there is a signal, generate. *)
Definition gen_from (max_width : nat) (selected : list string) : res string :=
  let signals := sort selected in
  if Nat.ltb 0 (List.length signals) then Ok (gen_body max_width signals) else Exn AssertionError.

(** bundle_code_gen.py:61-92, 95-128, 131-160: the three generators. *)
Definition gen_bundle_code_from_prefix (dut : list string) (prefix : string) (max_width : nat) : res string :=
  gen_from max_width (select_prefix prefix dut).
Definition gen_bundle_code_from_regex (dut : list string) (search : string -> option (list (option string))) (max_width : nat) : res string :=
  gen_from max_width (select_regex search dut).
Definition gen_bundle_code_from_dict (dut : list string) (d : list (string * string)) (max_width : nat) : res string :=
  gen_from max_width (select_dict d dut).
