(** * Theorems about [f32] as rounded real arithmetic (C80-C82).

    The model computes on the bits of [f32]; here the bits are numbers, and
    the operations of the model are the exact operations, rounded. *)
From Coq Require Import Reals Lra Floats.SpecFloat.
From Verif Require Import Base BaseFacts Utf8 F32 Subword Vocab Storage Embeddings Similarity FileSpec VocabSpec EmbSpec TextSpec SimSpec
  F32RoundSpec P_Emb.
From Verif Require F32Round F32Ops F32RoundThms SimRound EmbRound.
Local Open Scope R_scope.

(** ** C80: the operations are rounded correctly *)
@thm rounding_exists_thm F32RoundThms rounds_exists
@thm rounding_unique_thm F32RoundThms rounds_unique
@thm rounding_error_thm F32RoundThms rounds_error
@thm rounding_monotone_thm F32RoundThms rounds_mono
@thm add_rounds_thm F32Ops add_rounds
@thm sub_rounds_thm F32Ops sub_rounds
@thm mul_rounds_thm F32Ops mul_rounds
@thm div_rounds_thm F32Ops div_rounds
@thm sqrt_rounds_thm F32Ops sqrt_rounds
@thm of_N_rounds_thm F32RoundThms of_N_rounds
@thm value_compare_thm F32RoundThms value_compare
@thm is_zero_value_thm EmbRound is_zero_value
@thm classes_thm F32RoundThms classes
@thm nan_operand_thm F32RoundThms nan_operand
@thm inf_both_thm F32RoundThms inf_both
@thm inf_finite_thm F32RoundThms inf_finite
@thm div_by_zero_thm F32RoundThms div_by_zero
@thm sqrt_special_thm F32RoundThms sqrt_special
@thm cmp_inf_thm F32RoundThms cmp_inf

(** Values of concrete numbers. *)
Lemma value_down x s m k : f32_to_sf x = S754_finite s m (- Z.of_nat k) ->
  f32_value x = Some ((if s then -1 else 1) * IZR (Zpos m) / IZR (2 ^ Z.of_nat k)).
Proof.
  intros E. unfold f32_value. rewrite E. f_equal. unfold Rdiv. rewrite !Rmult_assoc. f_equal. f_equal.
  rewrite powerRZ_neg', <- pow_powerRZ, pow_IZR. reflexivity.
Qed.
Ltac value s m k := rewrite (value_down _ s m k) by (vm_compute; reflexivity);
  let p := eval vm_compute in (2 ^ Z.of_nat k)%Z in change (2 ^ Z.of_nat k)%Z with p; f_equal; lra.
Lemma finite_sf x : (exists s m e, f32_to_sf x = S754_finite s m e) -> f32_finite x.
Proof. intros (s & m & e & E). eexists. unfold f32_value. rewrite E. reflexivity. Qed.
Ltac finite := apply finite_sf; do 3 eexists; vm_compute; reflexivity.

Definition bits (n : N) : f32 := f32_of_bits n.
Lemma one_value : f32_value f32_one = Some 1. Proof. value false 8388608%positive 23%nat. Qed.
Lemma two_value : f32_value (fN 2) = Some 2. Proof. value false 8388608%positive 22%nat. Qed.
Lemma three_value : f32_value (fN 3) = Some 3. Proof. value false 12582912%positive 22%nat. Qed.
Lemma five_value : f32_value (fN 5) = Some 5. Proof. value false 10485760%positive 21%nat. Qed.
Lemma half_value : f32_value (bits 1056964608) = Some (1 / 2). Proof. value false 8388608%positive 24%nat. Qed.
(** Half a unit in the last place of one, [2^-24]; 1 and the sum of 1 and
    this lie on the two sides of the tie, the even one is the result. *)
Lemma tie_value : f32_value (bits 864026624) = Some (/ 16777216). Proof. value false 8388608%positive 47%nat. Qed.
Example add_rounds_ex : f32_value f32_one = Some 1 /\ f32_value (bits 864026624) = Some (/ 16777216) /\
  map f32_bits [f32_one; f32_add f32_one (bits 864026624); f32_add (bits 1065353217) (bits 864026624); f32_add f32_one (bits 864026625)] =
  [1065353216; 1065353216; 1065353218; 1065353217]%N.
Proof. split; [apply one_value|]. split; [apply tie_value|]. vm_compute. reflexivity. Qed.
Example sub_rounds_ex : f32_value (fN 3) = Some 3 /\ f32_sub (fN 3) (fN 3) = f32_zero /\ f32_bits (f32_sub f32_zero f32_zero) = 0%N.
Proof. split; [apply three_value|]. split; vm_compute; reflexivity. Qed.
Example div_rounds_ex : f32_value f32_one = Some 1 /\ f32_value (fN 3) = Some 3 /\ 3 <> 0 /\ f32_bits (f32_div f32_one (fN 3)) = 1051372203%N /\
  f32_bits (f32_mul (fN 3) (f32_div f32_one (fN 3))) = f32_bits f32_one.
Proof. split; [apply one_value|]. split; [apply three_value|]. split; [lra|]. split; vm_compute; reflexivity. Qed.
Example sqrt_rounds_ex : f32_value (fN 2) = Some 2 /\ 0 <= 2 /\ f32_bits (f32_sqrt (fN 2)) = 1068827891%N.
Proof. split; [apply two_value|]. split; [lra|]. vm_compute. reflexivity. Qed.
(** The largest number; twice the number is infinite. *)
Example mul_rounds_ex : f32_finite (bits 2139095039) /\ f32_inf false (f32_mul (fN 2) (bits 2139095039)) /\
  f32_is_nan (f32_sub (bits 2139095040) (bits 2139095040)) = true.
Proof.
  split; [finite|]. split; [|vm_compute; reflexivity]. split; [exists false; vm_compute; reflexivity|vm_compute; reflexivity].
Qed.
Example rounding_ex : rounds_to 1 f32_one /\ rounds_to (1 + / 16777216) f32_one.
Proof.
  split.
  - apply F32Ops.rounds_self, one_value.
  - exact (proj1 (add_rounds_thm _ _ _ _ one_value tie_value)).
Qed.
Example value_compare_ex : f32_value f32_one = Some 1 /\ f32_value (fN 2) = Some 2 /\ f32_cmp f32_one (fN 2) = Some Lt.
Proof. split; [apply one_value|]. split; [apply two_value|]. vm_compute. reflexivity. Qed.
Example special_ex : f32_is_nan (bits 2143289344) = true /\ f32_inf false (bits 2139095040) /\ f32_inf true (bits 4286578688) /\
  f32_value f32_zero = Some 0 /\ f32_value (bits 2147483648) = Some 0 /\ f32_inf true (f32_div f32_one (bits 2147483648)).
Proof.
  split; [vm_compute; reflexivity|]. split; [split; [exists false|]; vm_compute; reflexivity|]. split; [split; [exists true|]; vm_compute; reflexivity|].
  split; [apply is_zero_value_thm; vm_compute; reflexivity|]. split; [apply is_zero_value_thm; vm_compute; reflexivity|].
  split; [exists true|]; vm_compute; reflexivity.
Qed.

(** ** C81: vectors of length one *)
@thm normalize_error_thm EmbRound scaled_f32
@thm unknown_length_thm EmbRound unknown_f32
@thm read_length_thm EmbRound normalized_f32

Lemma above_small x : 1 <= x -> powerRZ 2 (-40) <= x.
Proof.
  intros H. apply Rle_trans with 1; [|exact H]. change (-40)%Z with (- Z.of_nat 40)%Z. rewrite powerRZ_neg', <- pow_powerRZ.
  replace 1 with (/ 1) by apply Rinv_1. apply Rinv_le_contravar; [lra|]. apply pow_R1_Rle. lra.
Qed.
Lemma scaled_34 : scaled_by_length f32_ops [fN 3; fN 4] [bits 1058642330; bits 1061997773] (fN 5).
Proof. split; [vm_compute; reflexivity|]. split; [intros K; vm_compute in K; discriminate|]. intros _. vm_compute. reflexivity. Qed.
Example normalize_error_ex : Forall f32_finite [fN 3; fN 4] /\ (lenN [fN 3; fN 4] <= 4194304)%N /\
  scaled_by_length f32_ops [fN 3; fN 4] [bits 1058642330; bits 1061997773] (fN 5) /\ f32_value (fN 5) = Some 5 /\ powerRZ 2 (-40) <= 5.
Proof.
  split; [constructor; [finite|constructor; [finite|constructor]]|]. split; [vm_compute; discriminate|]. split; [apply scaled_34|].
  split; [apply five_value|]. apply above_small. lra.
Qed.
Example unknown_length_ex : emb_made (nd_ops f32) Debug ex_emb 2 ex_rows /\ (2 <= 4194304)%N /\
  exists is rs v n nv, v_idx wrap_ops Debug ex_vocab ex_unknown = Ok (Some (Subwords is)) /\ Forall (fun i => (i < lenN ex_rows)%N) is /\
  selects ex_rows is rs /\ emb_with_norm f32_ops wrap_ops (nd_ops f32) Debug ex_emb ex_unknown = Ok (Some (v, n)) /\
  Forall f32_finite (component_sums f32_ops 2 rs) /\ f32_value n = Some nv /\ powerRZ 2 (-40) <= nv.
Proof.
  split; [apply ex_emb_made|]. split; [discriminate|]. do 5 eexists. split; [vm_compute; reflexivity|]. split; [repeat constructor|].
  split; [repeat (constructor; [vm_compute; reflexivity|]); constructor|]. split; [vm_compute; reflexivity|].
  split; [constructor; [finite|constructor; [finite|constructor]]|]. split.
  - eapply value_down with (k := 18%nat). vm_compute. reflexivity.
  - apply above_small. change (2 ^ Z.of_nat 18)%Z with 262144%Z. lra.
Qed.
Definition ex_read : embeddings unit simple_vocab (array2 f32) f32 :=
  mkEmb None (mkA2 2 [[bits 1058642330; bits 1061997773]]) (mkSimple (create_indices [[x61]]) [[x61]]) (Some [fN 5]).
Example read_length_ex : normalized_result f32_ops ex_read 2 [([x61], [fN 3; fN 4])] /\ f32_value (fN 5) = Some 5.
Proof.
  split; [|apply five_value]. split; [vm_compute; reflexivity|]. split; [reflexivity|]. split; [reflexivity|]. split; [reflexivity|].
  exists [fN 5]. split; [reflexivity|]. split; [reflexivity|]. intros i w v H. destruct i as [|p]; [|exfalso; destruct p; vm_compute in H; discriminate].
  injection H as <- <-. exists [bits 1058642330; bits 1061997773], (fN 5). split; [reflexivity|]. split; [reflexivity|]. apply scaled_34.
Qed.

(** ** C82: the measures *)
@thm measures_order_f32_thm SimRound measures_f32_order
@thm measures_range_f32_thm SimRound measures_f32_range
@thm measures_nan_f32_thm SimRound measures_f32_nan
@thm measures_error_f32_thm SimRound measures_f32_error
@thm angular_f32_thm SimRound angular_f32

Example measures_f32_ex : let x := mkWsr (bits 1056964608) [x61] in let y := mkWsr f32_one [x62] in let z := mkWsr (bits 1065353217) [x63] in
  f32_le f32_minus_one (wr_sim x) /\ f32_le (wr_sim x) (wr_sim y) /\ f32_le (wr_sim y) f32_one /\ f32_lt f32_one (wr_sim z) /\
  f32_value (wr_sim x) = Some (1 / 2) /\ euclidean_distance f32_ops x = f32_one /\ euclidean_similarity f32_ops x = bits 1056964608.
Proof.
  cbn zeta. split; [exists Lt; split; [vm_compute; reflexivity|discriminate]|]. split; [exists Lt; split; [vm_compute; reflexivity|discriminate]|].
  split; [exists Eq; split; [vm_compute; reflexivity|discriminate]|]. split; [vm_compute; reflexivity|]. split; [apply half_value|].
  split; vm_compute; reflexivity.
Qed.
(** The function [1 - x], with [pi = 2], has the laws. *)
Example acos_law_ex : acos_law (f32_sub f32_one) (fN 2).
Proof.
  split.
  - exists 2. split; [apply two_value|lra].
  - intros x y _ H _. exact (SimRound.sub_le _ _ _ _ one_value H).
  - intros x H1 H2. apply (SimRound.sub_le _ _ _ _ one_value) in H1. apply (SimRound.sub_le _ _ _ _ one_value) in H2.
    replace (f32_sub f32_one f32_one) with f32_zero in H2 by (vm_compute; reflexivity).
    replace (f32_sub f32_one f32_minus_one) with (fN 2) in H1 by (vm_compute; reflexivity). auto.
Qed.
