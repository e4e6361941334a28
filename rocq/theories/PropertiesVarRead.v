(** Property C03, continued: what [read_var_u32] makes of any bytes (SVarRead.v). *)
From Verif Require Import PVarRead.
Open Scope list_scope. Open Scope Z_scope.

Theorem C03_read_any : forall p input, Forall (fun b => 0 <= b < 256) input -> read_var_u32 p input = var_result p input.
Proof. exact read_any. Qed.
Print Assumptions C03_read_any.
(** Up to five bytes the number is the one with place values, modulo 2^32. *)
Theorem C03_read_value : forall p input cs e rest, Forall (fun b => 0 <= b < 256) input -> var_split input = Some (cs, e, rest) -> zlen cs <= 4 ->
  read_var_u32 p input = Ret (Some (var_sum cs e mod 2 ^ 32, rest)) /\ input = cs ++ e :: rest /\ Forall (fun c => 128 <= c < 255) cs /\ (0 <= e < 128 \/ e = 255).
Proof.
  intros p input cs e rest F S L. split; [|exact (split_cs _ _ _ _ F S)]. rewrite (read_any p input F). unfold var_result. rewrite S, (read_short _ _ _ _ F S L).
  destruct p; [|reflexivity]. destruct (Z.ltb_spec 4 (zlen cs)); [lia|reflexivity].
Qed.
Print Assumptions C03_read_value.
(** Nothing to read, no end, 300, 255 in one byte, 255 as LEB128 writes it, six bytes. *)
Example C03_read_any_case :
  map (read_var_u32 Debug) [[]; [128]; [172; 2; 9]; [255; 1]; [128; 255; 1]; [128; 128; 128; 128; 128; 1]] =
    [Ret None; Ret None; Ret (Some (300, [9])); Ret (Some (255, [1])); Ret (Some (32640, [1])); Panic POverflow] /\
  read_var_u32 Release [128; 128; 128; 128; 128; 1] = Ret (Some (8, [])) /\
  var_split [172; 2; 9] = Some ([172], 2, [9]) /\ var_sum [172] 2 = 300.
Proof. vm_compute. repeat split; reflexivity. Qed.
