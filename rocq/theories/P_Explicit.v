(** * Theorems about the conversion to explicit n-grams (C31, C32, C79). *)
From Verif Require Import Base BaseFacts Utf8 F32 Subword Vocab Storage Embeddings FileSpec VocabSpec EmbSpec LookupExactSpec P_Emb.
From Verif Require MatrixFacts ExplicitFacts ExplicitExact.
Local Open Scope N_scope.

(** ** C31: the conversion preserves vectors

    Full statement: the last two clauses of [converted] without the hypotheses
    that the boundaries are the default ones. *)
Theorem to_explicit_bucket_partial : forall (Md S S' F : Type) (o : fops F) (SO : storage_ops F S) (SO' : storage_ops F S') pf clone (order : hmap N -> list (str * N)) (order' : nmap N -> list (N * N)),
  forall (v : subword_vocab hash_indexer) s (md : option Md) norms cols rows,
  any_order order -> any_order order' ->
    emb_made SO pf (mkEmb md s (VBucket v) norms) cols rows -> vocab_usable (VBucket v) ->
    Forall (fun w => utf8_valid w = true) (sv_words v) -> clones clone SO' s cols rows ->
    exists e', emb_to_explicit hash_bucket_ops SO' pf clone order order' (mkEmb md s v norms) = Ok e' /\
    converted o SO SO' pf hash_ops v s md norms cols rows e'.
Proof. exact (@ExplicitFacts.to_explicit_bucket). Qed.
Print Assumptions to_explicit_bucket_partial.
Theorem to_explicit_fasttext_partial : forall (Md S S' F : Type) (o : fops F) (SO : storage_ops F S) (SO' : storage_ops F S') pf clone (order : hmap N -> list (str * N)) (order' : nmap N -> list (N * N)),
  forall (v : subword_vocab ft_indexer) s (md : option Md) norms cols rows,
  any_order order -> any_order order' ->
    emb_made SO pf (mkEmb md s (VFastText v) norms) cols rows -> vocab_usable (VFastText v) ->
    Forall (fun w => utf8_valid w = true) (sv_words v) -> clones clone SO' s cols rows ->
    exists e', emb_to_explicit ft_bucket_ops SO' pf clone order order' (mkEmb md s v norms) = Ok e' /\
    converted o SO SO' pf ft_ops v s md norms cols rows e'.
Proof. exact (@ExplicitFacts.to_explicit_fasttext). Qed.
Print Assumptions to_explicit_fasttext_partial.
Definition ex_sub : subword_vocab hash_indexer :=
  mkSub default_bow default_eow ex_hash (create_indices ex_words) ex_words 3 6.
Lemma ex_range : range_ok 3 6.
Proof. split; vm_compute; discriminate. Qed.
(** [twee] is known; all n-grams of the empty word occur, none of [aap]. *)
Example to_explicit_ex : any_order (@rev (str * N)) /\ any_order (@rev (N * N)) /\
  emb_made (nd_ops f32) Debug (mkEmb (@None unit) ex_matrix (VBucket ex_sub) (Some [fN 7; fN 8])) 2 ex_rows /\
  vocab_usable (VBucket ex_sub) /\ Forall (fun w => utf8_valid w = true) (sv_words ex_sub) /\
  clones nd_clone_from_mapping (nd_ops f32) ex_matrix 2 ex_rows /\
  occurs ex_sub [x77; x65; x65] /\
  exists e' : embeddings unit _ _ _,
    emb_to_explicit hash_bucket_ops (nd_ops f32) Debug nd_clone_from_mapping (@rev _) (@rev _)
      (mkEmb None ex_matrix ex_sub (Some [fN 7; fN 8])) = Ok e' /\
    emb_embedding f32_ops (sub_ops explicit_ops) (nd_ops f32) Debug e' [x74; x77; x65; x65] = Ok (Some [fN 2; fN 3]) /\
    emb_embedding f32_ops (sub_ops explicit_ops) (nd_ops f32) Debug e' [x61; x61; x70] = Ok None.
Proof.
  split; [intros m; apply Permutation.Permutation_rev|]. split; [intros m; apply Permutation.Permutation_rev|].
  split; [apply ex_emb_made|]. split; [apply ex_vocab_usable|]. split; [repeat constructor|].
  split; [apply (MatrixFacts.nd_clones ex_matrix ex_matrix_wf)|]. split.
  - exists [x74; x77; x65; x65]. split; [right; left; reflexivity|].
    apply ExplicitFacts.ngram_in_items; [reflexivity|apply ex_range|].
    destruct (in_dec str_eq_dec [x77; x65; x65] (map sw_str (ExplicitFacts.items_of
      (sv_bow ex_sub ++ [x74; x77; x65; x65] ++ sv_eow ex_sub) (sv_min ex_sub) (sv_max ex_sub)))) as [H|H]; [exact H|].
    exfalso. apply H. vm_compute. tauto.
  - eexists. split; [vm_compute; reflexivity|]. split; vm_compute; reflexivity.
Qed.
(** Boundaries are not kept: the explicit vocabulary uses the default ones, so
    [aab], all n-grams of which occur, gets another vector. *)
Definition ex_hash3 : list str := [[x61; x61; x61; x62]].   (* aaab *)
Definition ex_hash_sub : subword_vocab hash_indexer :=
  mkSub [x23] [x23] ex_hash (create_indices ex_hash3) ex_hash3 3 3.
Definition ex_matrix5 : array2 f32 := mkA2 2 (map (fun i => [fN i; fN (i * i)]) [1; 2; 3; 4; 5]).
Theorem to_explicit_boundaries_refuted :
  exists (e : embeddings unit (subword_vocab hash_indexer) (array2 f32) f32) e' cols rows w,
  emb_made (nd_ops f32) Debug (emb_wrap VBucket (fun s => s) e) cols rows /\ vocab_usable (VBucket (em_vocab e)) /\
  emb_to_explicit hash_bucket_ops (nd_ops f32) Debug nd_clone_from_mapping (fun m => m) (fun m => m) e = Ok e' /\
  utf8_valid w = true /\
  (forall g, ngram_in (sv_bow (em_vocab e) ++ w ++ sv_eow (em_vocab e)) (sv_min (em_vocab e)) (sv_max (em_vocab e)) g ->
     occurs (em_vocab e) g) /\
  emb_embedding f32_ops (sub_ops explicit_ops) (nd_ops f32) Debug e' w
  <> emb_embedding f32_ops (sub_ops hash_ops) (nd_ops f32) Debug e w.
Proof.
  exists (mkEmb None ex_matrix5 ex_hash_sub None). eexists. exists 2, (a2_rows ex_matrix5), [x61; x61; x62].
  cbn [em_vocab emb_wrap em_meta em_storage em_norms].
  split; [|split; [|split; [vm_compute; reflexivity|split; [reflexivity|split]]]].
  - split; [|split; [apply (MatrixFacts.nd_matrix ex_matrix5); repeat constructor|vm_compute; reflexivity]].
    apply (vm_bucket Debug ex_hash3 3 3 ex_hash [x23] [x23]); [|vm_compute; reflexivity].
    apply (im_hash 2); [discriminate|reflexivity].
  - intros mn mx bow eow H. inv H. split; [split; vm_compute; discriminate|]. auto.
  - assert (range_ok 3 3) as R by (split; vm_compute; discriminate).
    intros g H. apply ExplicitFacts.ngram_in_items in H; [|reflexivity|exact R].
    exists [x61; x61; x61; x62]. split; [left; reflexivity|].
    apply ExplicitFacts.ngram_in_items; [reflexivity|exact R|].
    vm_compute in H. vm_compute. tauto.
  - vm_compute. discriminate.
Qed.
Print Assumptions to_explicit_boundaries_refuted.
(** Metadata is dropped. *)
Theorem to_explicit_metadata_refuted :
  exists (e : embeddings nat (subword_vocab hash_indexer) (array2 f32) f32) e',
  emb_to_explicit hash_bucket_ops (nd_ops f32) Debug nd_clone_from_mapping (fun m => m) (fun m => m) e = Ok e' /\
  em_meta e' <> em_meta e.
Proof.
  exists (mkEmb (Some 1%nat) ex_matrix ex_sub None). eexists. split; [vm_compute; reflexivity|]. discriminate.
Qed.
Print Assumptions to_explicit_metadata_refuted.

(** ** C32: which vocabularies can be converted

    Full statement: without the hypothesis [vocab_usable]. *)
Theorem try_to_explicit_partial : forall (Md S S' F : Type) (o : fops F) (SO : storage_ops F S) (SO' : storage_ops F S') pf clone (order : hmap N -> list (str * N)) (order' : nmap N -> list (N * N)),
  forall (e : embeddings Md vocab_wrap S F) cols rows,
  any_order order -> any_order order' -> emb_made SO pf e cols rows -> vocab_usable (em_vocab e) ->
    Forall (fun w => utf8_valid w = true) (v_words wrap_ops (em_vocab e)) -> clones clone SO' (em_storage e) cols rows ->
    (vocab_bucketed (em_vocab e) <-> exists e', emb_try_to_explicit SO' pf clone order order' e = Ok e') /\
    (~ vocab_bucketed (em_vocab e) -> emb_try_to_explicit SO' pf clone order order' e = Err EConversion).
Proof. exact (@ExplicitFacts.try_to_explicit_iff). Qed.
Print Assumptions try_to_explicit_partial.
Theorem try_to_explicit_same_thm : forall (Md S S' F : Type) (SO' : storage_ops F S') pf clone (order : hmap N -> list (str * N)) (order' : nmap N -> list (N * N)),
  forall (e : embeddings Md vocab_wrap S F),
  emb_try_to_explicit SO' pf clone order order' e
    = match em_vocab e with
      | VBucket v => emb_to_explicit hash_bucket_ops SO' pf clone order order' (mkEmb (em_meta e) (em_storage e) v (em_norms e))
      | VFastText v => emb_to_explicit ft_bucket_ops SO' pf clone order order' (mkEmb (em_meta e) (em_storage e) v (em_norms e))
      | _ => Err EConversion
      end.
Proof. exact (@ExplicitFacts.try_to_explicit_cases). Qed.
Print Assumptions try_to_explicit_same_thm.
Definition ex_simple : embeddings unit vocab_wrap (array2 f32) f32 :=
  mkEmb None (mkA2 2 (map (fun i => [fN i; fN (i + 1)]) [1; 2])) (VSimple (mkSimple (create_indices ex_words) ex_words)) None.
Example try_to_explicit_ex :
  emb_made (nd_ops f32) Debug ex_emb 2 ex_rows /\ vocab_usable (em_vocab ex_emb) /\ vocab_bucketed (em_vocab ex_emb) /\
  emb_made (nd_ops f32) Debug ex_simple 2 (a2_rows (em_storage ex_simple)) /\ vocab_usable (em_vocab ex_simple) /\
  ~ vocab_bucketed (em_vocab ex_simple).
Proof.
  split; [apply ex_emb_made|]. split; [apply ex_vocab_usable|]. split; [exact I|]. split; [|split; [|tauto]].
  - split; [apply (vm_simple Debug ex_words); vm_compute; reflexivity|].
    split; [apply (MatrixFacts.nd_matrix (em_storage ex_simple)); repeat constructor|vm_compute; reflexivity].
  - intros mn mx bow eow H. discriminate.
Qed.
(** A range that starts at zero is accepted by the constructors; the
    conversion panics. *)
Theorem try_to_explicit_refuted : exists e : embeddings unit vocab_wrap (array2 f32) f32,
  emb_made (nd_ops f32) Debug e 2 ex_rows /\ vocab_bucketed (em_vocab e) /\
  emb_try_to_explicit (nd_ops f32) Debug nd_clone_from_mapping (fun m => m) (fun m => m) e = Panic PAssert.
Proof.
  exists (mkEmb None ex_matrix (VBucket (mkSub default_bow default_eow ex_hash (create_indices ex_words) ex_words 0 6)) None).
  split; [|split; [exact I|vm_compute; reflexivity]].
  split; [|split; [apply (MatrixFacts.nd_matrix ex_matrix ex_matrix_wf)|vm_compute; reflexivity]].
  apply (vm_bucket Debug ex_words 0 6 ex_hash default_bow default_eow); [|vm_compute; reflexivity].
  apply (im_hash 2); [discriminate|reflexivity].
Qed.
Print Assumptions try_to_explicit_refuted.

(** ** C79: exactly when the conversion returns, and all its vectors *)
Theorem try_to_explicit_outcome_thm : forall (Md S S' F : Type) (o : fops F) (SO : storage_ops F S) (SO' : storage_ops F S') pf clone (order : hmap N -> list (str * N)) (order' : nmap N -> list (N * N)), any_order order -> any_order order' ->
  forall (e : embeddings Md vocab_wrap S F) cols rows,
  emb_made SO pf e cols rows -> bounds_utf8 (em_vocab e) ->
    Forall (fun w => utf8_valid w = true) (v_words wrap_ops (em_vocab e)) -> clones clone SO' (em_storage e) cols rows ->
    (~ vocab_bucketed (em_vocab e) -> emb_try_to_explicit SO' pf clone order order' e = Err EConversion) /\
    forall mn mx bow eow, vocab_bucketed (em_vocab e) -> vocab_range (em_vocab e) = Some (mn, mx, bow, eow) ->
    (v_words wrap_ops (em_vocab e) <> [] -> ~ range_ok mn mx ->
     emb_try_to_explicit SO' pf clone order order' e = Panic PAssert) /\
    (v_words wrap_ops (em_vocab e) <> [] -> range_ok mn mx ->
     exists e', emb_try_to_explicit SO' pf clone order order' e = Ok e' /\ sv_words (em_vocab e') = v_words wrap_ops (em_vocab e)) /\
    (v_words wrap_ops (em_vocab e) = [] ->
     exists e', emb_try_to_explicit SO' pf clone order order' e = Ok e' /\ sv_words (em_vocab e') = [] /\
     ei_ngrams (sv_ix (em_vocab e')) = [] /\ st_matrix SO' (em_storage e') cols [] /\ em_norms e' = em_norms e /\
     sv_min (em_vocab e') = mn /\ sv_max (em_vocab e') = mx).
Proof. exact (@ExplicitExact.try_to_explicit_outcome). Qed.
Print Assumptions try_to_explicit_outcome_thm.
Theorem explicit_bucket_lookups_thm : forall (Md S S' F : Type) (o : fops F) (SO : storage_ops F S) (SO' : storage_ops F S') pf clone (order : hmap N -> list (str * N)) (order' : nmap N -> list (N * N)), any_order order -> any_order order' ->
  forall (v : subword_vocab hash_indexer) s (md : option Md) norms cols rows,
  emb_made SO pf (mkEmb md s (VBucket v) norms) cols rows -> vocab_usable (VBucket v) ->
    Forall (fun w => utf8_valid w = true) (sv_words v) -> clones clone SO' s cols rows ->
    exists e', emb_to_explicit hash_bucket_ops SO' pf clone order order' (mkEmb md s v norms) = Ok e' /\
    forall w, utf8_valid w = true -> ~ In w (sv_words v) ->
    exists items r, ngrams_of (default_bow ++ w ++ default_eow) (sv_min v) (sv_max v) (map (fun p => fst (fst p)) items) /\
    (forall q k row, In (q, k, row) items -> (k = true <-> occurs v (sw_str q)) /\
       exists i, hash_index (sv_ix v) q = Ok [i] /\ nthN rows (lenN (sv_words v) + i) = Some row) /\
    subword_result o cols (map snd (filter (fun p => snd (fst p)) items)) r /\
    emb_embedding o (sub_ops explicit_ops) SO' pf e' w = Ok r.
Proof. exact (@ExplicitExact.bucket_lookups). Qed.
Print Assumptions explicit_bucket_lookups_thm.
Theorem explicit_fasttext_lookups_thm : forall (Md S S' F : Type) (o : fops F) (SO : storage_ops F S) (SO' : storage_ops F S') pf clone (order : hmap N -> list (str * N)) (order' : nmap N -> list (N * N)), any_order order -> any_order order' ->
  forall (v : subword_vocab ft_indexer) s (md : option Md) norms cols rows,
  emb_made SO pf (mkEmb md s (VFastText v) norms) cols rows -> vocab_usable (VFastText v) ->
    Forall (fun w => utf8_valid w = true) (sv_words v) -> clones clone SO' s cols rows ->
    exists e', emb_to_explicit ft_bucket_ops SO' pf clone order order' (mkEmb md s v norms) = Ok e' /\
    forall w, utf8_valid w = true -> ~ In w (sv_words v) ->
    exists items r, ngrams_of (default_bow ++ w ++ default_eow) (sv_min v) (sv_max v) (map (fun p => fst (fst p)) items) /\
    (forall q k row, In (q, k, row) items -> (k = true <-> occurs v (sw_str q)) /\
       exists i, ft_index (sv_ix v) q = Ok [i] /\ nthN rows (lenN (sv_words v) + i) = Some row) /\
    subword_result o cols (map snd (filter (fun p => snd (fst p)) items)) r /\
    emb_embedding o (sub_ops explicit_ops) SO' pf e' w = Ok r.
Proof. exact (@ExplicitExact.fasttext_lookups). Qed.
Print Assumptions explicit_fasttext_lookups_thm.
(** A range that makes no sense does not matter without words; the vector of
    [aab] for other boundaries (see [to_explicit_boundaries_refuted]) consists
    of the row of the n-gram [aab] alone: [<aa], [ab>] do not occur. *)
Definition ex_none : embeddings unit vocab_wrap (array2 f32) f32 :=
  mkEmb None (mkA2 2 [[fN 1; fN 2]; [fN 1; fN 2]; [fN 1; fN 2]; [fN 1; fN 2]])
        (VBucket (mkSub default_bow default_eow ex_hash [] [] 0 6)) None.
Example explicit_outcome_ex :
  emb_made (nd_ops f32) Debug ex_none 2 (a2_rows (em_storage ex_none)) /\ bounds_utf8 (em_vocab ex_none) /\
  vocab_bucketed (em_vocab ex_none) /\ vocab_range (em_vocab ex_none) = Some (0, 6, default_bow, default_eow) /\
  ~ range_ok 0 6 /\
  clones nd_clone_from_mapping (nd_ops f32) (em_storage ex_none) 2 (a2_rows (em_storage ex_none)) /\
  occurs ex_hash_sub [x61; x61; x62] /\ ~ occurs ex_hash_sub [x3c; x61; x61].
Proof.
  split; [|split; [|split; [exact I|split; [reflexivity|split]]]].
  - split; [|split; [apply (MatrixFacts.nd_matrix (em_storage ex_none)); repeat constructor|vm_compute; reflexivity]].
    apply (vm_bucket Debug [] 0 6 ex_hash default_bow default_eow); [|vm_compute; reflexivity].
    apply (im_hash 2); [discriminate|reflexivity].
  - intros mn mx bow eow H. inv H. auto.
  - intros [H _]. apply H. reflexivity.
  - assert (range_ok 3 3) as R by (split; vm_compute; discriminate).
    split; [apply (MatrixFacts.nd_clones (em_storage ex_none)); repeat constructor|]. split.
    + exists [x61; x61; x61; x62]. split; [left; reflexivity|]. apply ExplicitFacts.ngram_in_items; [reflexivity|exact R|].
      vm_compute. tauto.
    + intros (w & [<-|[]] & H). apply ExplicitFacts.ngram_in_items in H; [|reflexivity|exact R]. vm_compute in H.
      repeat (destruct H as [H|H]; [discriminate|]). exact H.
Qed.
