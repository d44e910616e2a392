(** * The markers of words in vocabularies that do not store them. *)
From Verif Require Import Base BaseFacts Utf8 Stream StreamFacts F32 ChunkIO Subword Vocab VocabFacts VocabSpec Storage
  Embeddings FastText Grammar GrammarFacts ReadFacts LookupFacts.
Local Open Scope N_scope.

(** "<" and ">" *)
Definition marked {I} (v : subword_vocab I) : Prop := sv_bow v = [x3c] /\ sv_eow v = [x3e].

Lemma sub_new_marked {I} (ops : indexer_ops I) pf ws mn mx ix v : sub_new ops pf ws mn mx ix = Ok v -> marked v.
Proof. intros H. apply sub_new_wb_Ok in H as (_ & -> & _). split; reflexivity. Qed.
Lemma sub_new_lookup {I} (ops : indexer_ops I) pf ws mn mx ix v : ix_made I ops ix -> sub_new ops pf ws mn mx ix = Ok v ->
  forall w, range_ok mn mx -> utf8_valid w = true -> ~ In w ws ->
  exists qs is, queried ops ([x3c] ++ w ++ [x3e]) mn mx qs /\ answers ops ix qs is /\
    v_idx (sub_ops ops) pf v w
      = Ok (match concat is with [] => None | _ => Some (Subwords (map (fun i => lenN ws + i) (concat is))) end).
Proof. intros M H. apply (@LookupFacts.sub_lookup_unknown I ops pf ws mn mx ix [x3c] [x3e] v M H); reflexivity. Qed.

Lemma read_marked pf s v s' : read_vocab_wrap pf s = (Ok v, s') ->
  match v with
  | VBucket v => marked v
  | VFastText v => marked v
  | VExplicit v => marked v
  | VFloret _ | VSimple _ => True
  end.
Proof. intros H. apply vocab_iff in H. destruct H; try exact I; eapply sub_new_marked; eassumption. Qed.
Lemma fasttext_marked pf T ct lossy s e s' : read_fasttext pf T ct lossy s = (Ok e, s') -> marked (em_vocab e).
Proof.
  intros H. unfold read_fasttext in H. minv H as m M. destruct (negb (m =? ft_magic)); [discriminate|].
  minv H as ver VE. destruct (ft_version <? ver); [discriminate|]. minv H as c C. minv H as v V.
  assert (marked v) as MV.
  { unfold read_ft_vocab in V. minv V as a1 A1. minv V as a2 A2. minv V as a3 A3. destruct (0 <? a3); [discriminate|].
    minv V as a4 A4. minv V as a5 A5. destruct (a5 <=? isize_max); [discriminate|]. minv V as a6 A6. minv V as a7 A7. minv V as a8 A8.
    apply lift_inv in V as [V _]. eapply sub_new_marked; eassumption. }
  minv H as q Q. destruct (q =? 1); [discriminate|]. minv H as x X. minv H as y Y. minv H as z Z. minv H as n N.
  destruct (negb _); [discriminate|]. destruct (ct c); [|discriminate].
  apply lift_inv in H as [H _]. unfold emb_new in H. rinv H.
  unfold emb_new_with_maybe_norms in H1. rinv H1. rinv H2. inv H3. exact MV.
Qed.
