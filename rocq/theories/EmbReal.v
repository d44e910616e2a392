(** * Lookups over exact real arithmetic (C27, C30). *)
From Coq Require Import Reals Lra.
From Verif Require Import Base BaseFacts Utf8 F32 Subword Vocab Storage Embeddings VocabSpec EmbSpec EmbFacts RealOps.
Local Open Scope N_scope.

(** The sum of the rows [rs], component by component. *)
Definition real_sum (cols : N) (rs : list (list R)) : list R :=
  map (fun j => fold_right Rplus 0%R (map (fun r => nth j r 0%R) rs)) (seq 0 (N.to_nat cols)).

Lemma unknown_unit {Md S} (SO : storage_ops R S) pf (e : embeddings Md vocab_wrap S R) cols rows w is :
  emb_made SO pf e cols rows -> v_idx wrap_ops pf (em_vocab e) w = Ok (Some (Subwords is)) ->
  Forall (fun i => i < lenN rows) is ->
  exists rs v n, selects rows is rs /\
  emb_embedding R_ops wrap_ops SO pf e w = Ok (Some v) /\
  emb_with_norm R_ops wrap_ops SO pf e w = Ok (Some (v, n)) /\
  (n = 0%R <-> Forall (fun x => x = 0%R) (real_sum cols rs)) /\
  (n = 0%R -> v = real_sum cols rs) /\
  (n <> 0%R -> inner v v = 1%R) /\
  into_unnormalized R_ops (v, n) = real_sum cols rs.
Proof.
  intros M E B. destruct (unknown_word R_ops SO pf e cols rows M w is E B) as (rs & v & n & S0 & SC & E1 & E2).
  exists rs, v, n. split; [auto|]. split; [auto|]. split; [auto|].
  assert (component_sums R_ops cols rs = real_sum cols rs) as CS.
  { unfold component_sums, real_sum. apply map_ext. intros j. apply component_sum_R. }
  rewrite CS in SC. apply scaled_R in SC as (Z & U & L & _ & V). split; [auto|]. split; [auto|]. split; [auto|].
  symmetry. exact V.
Qed.

(** Normalising rows before quantizing them, over the reals: a row that is not
    zero becomes a unit vector, and its norm times that vector is the row. *)
Lemma normalized_rows (rows data : list (list R)) norms : training_data R_ops true rows data norms ->
  exists ns, norms = Some ns /\ lenN ns = lenN rows /\ lenN data = lenN rows /\
  forall i r, nthN rows i = Some r -> exists d n, nthN data i = Some d /\ nthN ns i = Some n /\
    (0 <= n)%R /\ (n = 0%R <-> Forall (fun x => x = 0%R) r) /\
    (n <> 0%R -> inner d d = 1%R /\ r = map (fun x => (x * n)%R) d).
Proof.
  intros [-> ->]. eexists. split; [reflexivity|]. rewrite !lenN_map. split; [reflexivity|]. split; [reflexivity|].
  intros i r H. do 2 eexists.
  unfold vec. split; [rewrite nthN_map, H; reflexivity|]. split; [rewrite nthN_map, H; reflexivity|].
  cbn [fsqrt fdiv R_ops]. rewrite vdot_R. pose proof (inner_nonneg r) as P. split; [apply sqrt_pos|].
  assert (sqrt (inner r r) = 0%R <-> inner r r = 0%R) as E.
  { split; [apply sqrt_eq_0; auto|]. intros ->. apply sqrt_0. }
  split; [rewrite E; apply inner_zero|]. intros NZ. split.
  - rewrite inner_div by auto. rewrite sqrt_sqrt by auto. field. intros Z. apply NZ, E, Z.
  - rewrite map_map. rewrite <- (map_id r) at 1. apply map_ext. intros x. field. exact NZ.
Qed.
