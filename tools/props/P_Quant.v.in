(** * Theorems about quantizing (C34). *)
From Coq Require Import Reals.
From Verif Require Import Base BaseFacts Utf8 F32 Subword Vocab Storage Embeddings FileSpec VocabSpec EmbSpec RealOps P_Emb.
From Verif Require MatrixFacts QuantFacts EmbReal.
Local Open Scope N_scope.

(** ** C34: validation and preservation *)
@thm quantize_validation_thm QuantFacts quantize_cases | forall (F : Type) (o : fops F) (tr : trainer F),
@thm quantize_shape_thm QuantFacts quantize_shape | forall (F : Type) (o : fops F) (tr : trainer F),
@thm emb_quantize_thm QuantFacts emb_quantize
(** Full statement: norms and vectors are finite for every finite [f32]
    matrix.  Over the reals every row that is not zero is fine. *)
@thm normalized_rows_partial EmbReal normalized_rows

(** A trainer with one centroid: the first row. *)
Definition ex_trainer : trainer f32 :=
  mkTrainer
    (fun ns bits it at_ a => match a2_rows a with
                             | r :: _ => if lenN r =? a2_cols a then Ok (mkPq None 1 1 (a2_cols a) [[r]]) else Err EQuantization
                             | [] => Err EQuantization
                             end)
    (fun p a => mkA2 1 (map (fun _ => [x00]) (a2_rows a))).
Lemma ex_trainer_fits : trainer_fits ex_trainer.
Proof.
  constructor; cbn [tr_train tr_quantize ex_trainer]; intros ns bits it at_ a p H;
    (destruct (a2_rows a) as [|r rs] eqn:E; [discriminate|]); (destruct (lenN r =? a2_cols a) eqn:L; [|discriminate]);
    apply N.eqb_eq in L; inv H; cbn [pq_cent pq_ql pq_nc pq_sub pq_proj].
  - split; [unfold pq_rl; cbn [pq_ql pq_sub]; apply N.mul_1_l|]. split; [reflexivity|]. split; [repeat constructor; auto|discriminate].
  - unfold a2_nrows. cbn [a2_rows]. rewrite E, lenN_map. split; [reflexivity|]. apply Forall_map, Forall_forall.
    intros _ _. repeat constructor.
Qed.
Example quantize_ex : trainer_fits ex_trainer /\ trainable 6 2 /\ ~ trainable 6 3 /\ ~ trainable 1000 9 /\
  emb_made (nd_ops f32) Debug ex_emb (a2_cols ex_matrix) (a2_rows ex_matrix) /\
  (exists e', emb_quantize_using f32_ops Ok ex_trainer 1 2 1 1 true ex_emb = Ok e' /\ gemm_exact f32_ops ex_gemm (em_storage e')) /\
  emb_quantize_using f32_ops Ok ex_trainer 1 3 1 1 true ex_emb = Err EQuantization.
Proof.
  split; [apply ex_trainer_fits|]. split; [split; [|right]; vm_compute; discriminate|].
  split; [intros [_ [H|H]]; [discriminate|vm_compute in H; apply H; reflexivity]|].
  split; [intros [H _]; vm_compute in H; apply H; reflexivity|]. split; [apply ex_emb_made|].
  split; [eexists; split; [vm_compute; reflexivity|intros m H; discriminate]|]. vm_compute. reflexivity.
Qed.
Example normalized_rows_ex : training_data R_ops true [[3; 4]; [0; 0]]%R
    [[3 / sqrt (vdot R_ops [3; 4] [3; 4]); 4 / sqrt (vdot R_ops [3; 4] [3; 4])];
     [0 / sqrt (vdot R_ops [0; 0] [0; 0]); 0 / sqrt (vdot R_ops [0; 0] [0; 0])]]%R
    (Some [sqrt (vdot R_ops [3; 4] [3; 4]); sqrt (vdot R_ops [0; 0] [0; 0])]%R).
Proof. split; reflexivity. Qed.

(** A zero row is divided by zero: whatever the trainer, it is trained on NaN. *)
Theorem quantize_zero_row_refuted : exists a : array2 f32,
  Forall (Forall (fun x => f32_finite x = true)) (a2_rows a) /\
  forall data norms, training_data f32_ops true (a2_rows a) data norms ->
  Exists (Exists (fun x => f32_is_nan x = true)) data.
Proof.
  exists (mkA2 2 [[fN 0; fN 0]; [fN 1; fN 2]]). split; [repeat constructor|].
  intros data norms [-> _]. left. left. vm_compute. reflexivity.
Qed.
Print Assumptions quantize_zero_row_refuted.
(** For instance, with the trainer above the vectors become NaN, although it
    gives finite centroids for finite data. *)
Theorem quantize_finite_refuted :
  (forall ns bits it at_ a p, Forall (Forall (fun x => f32_finite x = true)) (a2_rows a) ->
     tr_train ex_trainer ns bits it at_ a = Ok p ->
     Forall (Forall (Forall (fun x => f32_finite x = true))) (pq_cent p)) /\
  exists a q, Forall (Forall (fun x => f32_finite x = true)) (a2_rows a) /\
  quantize_using f32_ops ex_trainer 1 0 1 1 true a = Ok q /\
  exists v, qa_embedding f32_ops q 0 = Ok v /\ Exists (fun x => f32_is_nan x = true) v.
Proof.
  split.
  - intros ns bits it at_ a p H T. cbn [tr_train ex_trainer] in T. destruct (a2_rows a) as [|r rs]; [discriminate|].
    destruct (lenN r =? a2_cols a); [|discriminate]. inv T. inv H. repeat constructor. auto.
  - exists (mkA2 2 [[fN 0; fN 0]; [fN 1; fN 2]]). eexists. split; [repeat constructor|].
    split; [vm_compute; reflexivity|]. eexists. split; [vm_compute; reflexivity|]. left. vm_compute. reflexivity.
Qed.
Print Assumptions quantize_finite_refuted.
(** The norm of a finite row may be infinite; the row is then trained as
    zeros and comes back as NaN. *)
Theorem quantize_norm_refuted : exists a q,
  Forall (Forall (fun x => f32_finite x = true)) (a2_rows a) /\
  quantize_using f32_ops ex_trainer 1 0 1 1 true a = Ok q /\
  Exists (fun n => f32_finite n = false) (match qa_norms q with Some ns => ns | None => [] end) /\
  exists v, qa_embedding f32_ops q 0 = Ok v /\ Exists (fun x => f32_is_nan x = true) v.
Proof.
  exists (mkA2 2 [[ex_huge; ex_huge]]). eexists. split; [repeat constructor|].
  split; [vm_compute; reflexivity|]. split; [left; vm_compute; reflexivity|].
  eexists. split; [vm_compute; reflexivity|]. left. vm_compute. reflexivity.
Qed.
Print Assumptions quantize_norm_refuted.
