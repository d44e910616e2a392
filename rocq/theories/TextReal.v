(** * Normalisation on reading, over exact real arithmetic (C50). *)
From Coq Require Import Reals Lra.
From Verif Require Import Base BaseFacts Utf8 F32 Subword Vocab Storage Embeddings TextIO VocabSpec EmbSpec EmbFacts TextSpec TextThms RealOps.
Local Open Scope N_scope.

Lemma normalize_invertible {Md} pf (e : embeddings Md simple_vocab (array2 R) R) words :
  simple_new words = Ok (em_vocab e) -> lenN (a2_rows (em_storage e)) = lenN words ->
  exists e' ns, normalize_all R_ops pf e = Ok e' /\ v_words simple_ops (em_vocab e') = words /\
  a2_cols (em_storage e') = a2_cols (em_storage e) /\
  lenN (a2_rows (em_storage e')) = lenN words /\ em_norms e' = Some ns /\ lenN ns = lenN words /\
  forall i r, nthN (a2_rows (em_storage e)) i = Some r -> exists d n,
    nthN (a2_rows (em_storage e')) i = Some d /\ nthN ns i = Some n /\
    (0 <= n)%R /\ (n = 0%R <-> Forall (fun x => x = 0%R) r) /\ (n = 0%R -> d = r) /\
    (n <> 0%R -> inner d d = 1%R) /\ r = map (fun x => (x * n)%R) d.
Proof.
  intros H L. destruct (normalize_all_exact R_ops pf e words H L) as (e' & E & N1 & N2 & N3 & N4 & ns & N5 & N6 & N7).
  assert (length words = length (a2_rows (em_storage e))) as LL by (unfold lenN in L; lia).
  assert (lenN (combine words (a2_rows (em_storage e))) = lenN words) as LC by (unfold lenN in *; rewrite combine_length; lia).
  exists e', ns. split; [exact E|].
  assert (map fst (combine words (a2_rows (em_storage e))) = words) as MW.
  { clear - LL. revert LL. generalize (a2_rows (em_storage e)). induction words as [|w ws IH]; intros [|r rs] LL; try discriminate; [reflexivity|].
    cbn. f_equal. apply IH. cbn in LL. lia. }
  rewrite MW in N1. split; [apply VocabFacts.simple_new_Ok in N1 as [_ ->]; reflexivity|]. split; [exact N3|]. split; [rewrite N4; exact LC|]. split; [exact N5|]. split; [rewrite N6; exact LC|].
  intros i r R0. apply nthN_Some_lt in R0 as Hi. destruct (nthN_lt words i ltac:(lia)) as [w W].
  destruct (N7 i w r) as (d & n & D & NN & SC).
  { rewrite !nthN_spec in *. clear - W R0. revert W R0. generalize (N.to_nat i) (a2_rows (em_storage e)). intros k. revert words. induction k as [|k IH]; intros [|x ws] [|y rs] W R; try discriminate.
    - cbn in *. injection W as ->. injection R as ->. reflexivity.
    - cbn in *. auto. }
  exists d, n. split; [exact D|]. split; [exact NN|]. pose proof SC as (EN & _ & _). apply scaled_R in SC as (Z & U & LN & _ & V).
  split; [rewrite EN; apply sqrt_pos|]. auto.
Qed.
