(** Properties C01, C02. *)
From Verif Require Import Base IndexVecModel IndexVecSpec IndexVecLemmas.
Local Open Scope N_scope.

(** C01: every history of calls on a DynamicPrecisionIndexVec built from any vector is
    indistinguishable from the same history on that plain vector. *)
Theorem C01_dynamic_index_vec_is_vec : forall (v : list N) (ops : list iop),
  Forall (fun x => x < 2 ^ 64) v -> all_below (2 ^ 64) ops ->
  run dp_step (dp_from v) ops = run (vec_step (fun x => x)) v ops.
Proof. exact dynamic_refines_vec. Qed.
Print Assumptions C01_dynamic_index_vec_is_vec.

Theorem C01_dynamic_index_vec_from_u8_is_vec : forall (v : list N) (ops : list iop),
  Forall (fun x => x < 2 ^ 8) v -> all_below (2 ^ 64) ops ->
  run dp_step (dp_from_u8 v) ops = run (vec_step (fun x => x)) v ops.
Proof. exact dynamic_refines_vec_u8. Qed.
Print Assumptions C01_dynamic_index_vec_from_u8_is_vec.

Theorem C01_dynamic_index_vec_new_is_vec : forall ops : list iop, all_below (2 ^ 64) ops ->
  run dp_step dp_new ops = run (vec_step (fun x => x)) [] ops.
Proof. exact dynamic_refines_vec_new. Qed.
Print Assumptions C01_dynamic_index_vec_new_is_vec.

(** A history that goes through all four storage widths, including a panic. *)
Example C01_case :
  let ops := [IPush 255; IPush 256; ISet 0 70000; IPush (2 ^ 40); ISet 9 1; IGet 0; IIter; IGet 4] in
  all_below (2 ^ 64) ops /\
  run dp_step (dp_from [3; 300]) ops =
    [OUnit; OUnit; OUnit; OUnit; OPanic; OVal 70000;
     OList [Some 70000; Some 300; Some 255; Some 256; Some (2 ^ 40)]; OVal (2 ^ 40)].
Proof. split; [repeat constructor|vm_compute; reflexivity]. Qed.

(** C02: below 2^32 U32IndexVec is a plain vector ... *)
Theorem C02_u32_index_vec_exact_below_2_32 : forall ops : list iop, all_below (2 ^ 32) ops ->
  run u32_step [] ops = run (vec_step (fun x => x)) [] ops.
Proof. exact u32_exact. Qed.
Print Assumptions C02_u32_index_vec_exact_below_2_32.

(** ... and for arbitrary histories it is a vector that silently reduces every written value
    modulo 2^32. *)
Theorem C02_u32_index_vec_truncates : forall ops : list iop,
  run u32_step [] ops = run (vec_step (fun x => x mod 2 ^ 32)) [] ops.
Proof. exact u32_truncates. Qed.
Print Assumptions C02_u32_index_vec_truncates.

Example C02_case : run u32_step [] [IPush 7; IPush (2 ^ 32 + 5); IGet 0; IGet 1; ILen] =
                   [OUnit; OUnit; OVal 7; OVal 5; OVal 2]
  /\ all_below (2 ^ 32) [IPush (2 ^ 32 - 1); IGet 0].
Proof. split; [vm_compute; reflexivity|repeat constructor]. Qed.
