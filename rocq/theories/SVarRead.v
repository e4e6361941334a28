(** Specification side: what the crate's reader of variable-length integers makes of any bytes (C03). *)
From Verif Require Export MBase.
Open Scope list_scope. Open Scope Z_scope.

(** The bytes before the one that ends the number, that byte, and what follows; [None]: no byte ends it. A byte ends the
    number if it is below 128 or equal to 255. *)
Fixpoint var_split (input : list Z) : option (list Z * Z * list Z) :=
  match input with
  | [] => None
  | b :: rest =>
      if (b <? 128) || (b =? 255) then Some ([], b, rest)
      else match var_split rest with Some (cs, e, r) => Some (b :: cs, e, r) | None => None end
  end.
(** The [j]th byte counts 7 bits further left than the one before; positions are taken modulo 32. *)
Fixpoint var_bits (j : Z) (cs : list Z) (e : Z) : list Z :=
  match cs with
  | [] => [(e * 2 ^ ((7 * j) mod 32)) mod 2 ^ 32]
  | c :: cs' => ((c - 128) * 2 ^ ((7 * j) mod 32)) mod 2 ^ 32 :: var_bits (j + 1) cs' e
  end.
Definition var_value (cs : list Z) (e : Z) : Z := fold_left Z.lor (var_bits 0 cs e) 0.
(** A debug build stops when a position reaches 32: at the sixth byte. *)
Definition var_result (p : profile) (input : list Z) : outcome (option (Z * list Z)) :=
  match var_split input, p with
  | None, Debug => if 5 <? zlen input then Panic POverflow else Ret None
  | None, Release => Ret None
  | Some (cs, e, rest), Debug => if 4 <? zlen cs then Panic POverflow else Ret (Some (var_value cs e, rest))
  | Some (cs, e, rest), Release => Ret (Some (var_value cs e, rest))
  end.
(** The number with place values. *)
Fixpoint var_sum (cs : list Z) (e : Z) : Z := match cs with [] => e | c :: cs' => c - 128 + 128 * var_sum cs' e end.
