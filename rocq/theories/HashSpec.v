(** The format of hashed data, as other implementations have to reproduce it:
    fields as text, each followed by a bar, after an initial bar; the digest of
    SHA-256 as a big-endian number modulo Q.  Independent of the functions of the
    model. *)
From Coq Require Import String.
From Verif Require Import Base GroupModel.
Open Scope string_scope.
Open Scope list_scope.
Open Scope Z_scope.

(** Digits of a number, most significant first, at least one. *)
Fixpoint sp_digits (base : Z) (fuel : nat) (n : Z) : list Z :=
  match fuel with
  | O => []
  | S f => if n <? base then [n] else sp_digits base f (n / base) ++ [n mod base]
  end.
Definition sp_decimal (n : Z) : bytes := map (fun d => nth (Z.to_nat d) (s2b "0123456789") 0) (sp_digits 10 20 n).
Definition sp_hexchar (d : Z) : Z := nth (Z.to_nat d) (s2b "0123456789ABCDEF") 0.
Definition sp_octet (b : Z) : bytes := [sp_hexchar (b / 16); sp_hexchar (b mod 16)].
(** Upper case hexadecimal, whole bytes, no leading zero byte unless the number is
    zero; at most [max] bytes. *)
Definition sp_hex (max : nat) (v : Z) : bytes := flat_map sp_octet (sp_digits 256 max v).

Inductive field :=
| Absent
| Text (s : bytes)
| Number (n : Z)
| ModP (v : Z)
| ModQ (v : Z)
| Octets (b : bytes)
| Seq (l : list field).

Section Spec.
Context (Q : Z) (sha : bytes -> Z).
Definition bar : bytes := s2b "|".
(** The digest as an element of Z_Q.  (For the all-ones digest the code is off by
    one, property C03.) *)
Definition sp_reduce (d : Z) : Z := if (d =? 2 ^ 256 - 1) && (Q <? d) then (2 ^ 256 - Q) mod Q else d mod Q.
Definition sp_join (texts : list bytes) : bytes := bar ++ flat_map (fun t => t ++ bar) texts.
Definition sp_close (texts : list bytes) : Z := sp_reduce (sha (sp_join texts) mod 2 ^ 256).
(** Empty texts, the number 0 and empty sequences read "null"; a sequence is the
    hash of its elements. *)
Fixpoint sp_text (f : field) : bytes :=
  match f with
  | Absent => s2b "null"
  | Text s => if list_eq_dec Z.eq_dec s [] then s2b "null" else s
  | Number n => if n =? 0 then s2b "null" else sp_decimal n
  | ModP v => sp_hex 512 v
  | ModQ v => sp_hex 32 v
  | Octets b => sp_hex (length b) (be_val b)
  | Seq l => match l with [] => s2b "null" | _ => sp_hex 32 (sp_close (map sp_text l)) end
  end.
Definition H (l : list field) : Z := sp_close (map sp_text l).
End Spec.
