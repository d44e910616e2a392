(** * Theorems about storing embeddings of other formats in the finalfusion format (C100),
    about changing parts of embeddings (C101) and about storing converted ones (C103, C104) and about text formats (C105),
    about what does not survive (C106) and about everything a program can obtain (C108). *)
From Verif Require Import Base BaseFacts Utf8 F32 Stream ChunkIO Subword Vocab Storage Embeddings TextIO FastText FileSpec TextSpec
  VocabSpec EmbSpec TextFacts LossyFacts ConvertThms LayoutThms StoreThms RewriteThms SurviveThms LookupExactSpec ProgramThms.
From Verif Require Import FastTextSpec.
From Verif Require MatrixFacts TextThms P_Emb P_File P_Sim P_Text P_FastText.
Local Open Scope N_scope.

(** Every result of the readers, whatever they read. *)
@thm text_convert_thm ConvertThms text_convert | forall (P : ftext_ops) (pf : profile) (T : toml_ops),
@thm word2vec_convert_thm ConvertThms word2vec_convert | forall (pf : profile) (T : toml_ops),
@thm floret_convert_thm ConvertThms floret_convert | forall (P : ftext_ops) (pf : profile) (T : toml_ops),
@thm fasttext_convert_thm ConvertThms fasttext_convert | forall (pf : profile) (T : toml_ops),

Ltac small := unfold room_for; cbn; repeat split; repeat constructor; vm_compute; try reflexivity; discriminate.
Example text_convert_ex : exists e, toml_law P_File.ex_toml /\
  run_reader (text_reader P_Text.ex_P Debug false true) (TextThms.text_file P_Text.ex_P P_Text.ex_items) = Ok e /\
  room_for (v_words simple_ops (em_vocab e)) (em_storage (Md := toml_table P_File.ex_toml) e) /\ em_norms e <> None.
Proof. eexists. split; [apply P_File.ex_toml_law|]. split; [vm_compute; reflexivity|]. split; [small|discriminate]. Qed.
Example word2vec_convert_ex : exists e,
  run_reader (word2vec_reader (Md := toml_table P_File.ex_toml) Debug false true) ([x31; x20; x31; x0a] ++ [x61; x20; x00; x00; x80; x3f; x0a]) = Ok e /\
  Forall (fun w => lenN w < two32) (v_words simple_ops (em_vocab e)) /\ a2_cols (em_storage e) < two32 /\ v_words simple_ops (em_vocab e) = [[x61]].
Proof. eexists. split; [vm_compute; reflexivity|]. split; [small|]. split; reflexivity. Qed.
Example floret_convert_ex : exists e,
  run_reader (read_floret_text P_Text.ex_P Debug) (P_Text.floret_file 1 2 3 6 2 7 P_Text.ex_row) = Ok e /\
  room_for [sv_bow (em_vocab e); sv_eow (em_vocab e)] (em_storage (Md := toml_table P_File.ex_toml) e) /\ a2_nrows (em_storage e) = 1.
Proof. eexists. split; [vm_compute; reflexivity|]. split; [small|reflexivity]. Qed.
Example fasttext_convert_ex : exists e, toml_law P_FastText.ft_T /\
  run_reader (read_fasttext Debug P_FastText.ft_T P_FastText.ft_table false)
    (FastTextSpec.ft_bytes (P_FastText.ft_ex_file 2 3 6 [[x61]; [x62]] 0 P_FastText.ft_ex_rows)) = Ok e /\
  Forall (fun w => lenN w < two32) (sv_words (em_vocab e)) /\ a2_cols (em_storage e) < two32 /\
  (forall t, em_meta e = Some t -> lenN (toml_print P_FastText.ft_T t) <= isize_max) /\ sv_words (em_vocab e) = [[x61]; [x62]].
Proof.
  eexists. split; [intros []; split; reflexivity|]. split; [vm_compute; reflexivity|]. split; [small|]. split; [reflexivity|].
  split; [intros [] _; vm_compute; discriminate|reflexivity].
Qed.

(** ** C101: changing numbers and metadata *)
@thm file_numbers_thm LayoutThms file_numbers
@thm set_metadata_thm LayoutThms set_metadata_file
@thm into_parts_thm LayoutThms parts_rebuild
@thm view_clone_thm LayoutThms view_clone

(** The files of two matrices of the same shape; one number differs. *)
Definition other_matrix : array2 f32 :=
  mkA2 2 (map (fun n => [P_File.ex_f (if n =? 4 then 7 else 1065353216 + n); P_File.ex_f n]) [0; 1; 2; 3; 4; 5]).
Fixpoint differences (i : N) (a b : list byte) : list N :=
  match a, b with
  | x :: a', y :: b' => (if Byte.eqb x y then [] else [i]) ++ differences (i + 1) a' b'
  | _, _ => []
  end.
Example file_numbers_ex : let e := P_File.ex_emb (Some P_File.ex_norms) in
  em_storage e = SNdArray P_File.ex_matrix /\ emb_built Release P_File.ex_toml e (SNdArray P_File.ex_matrix) /\
  same_shape P_File.ex_matrix other_matrix /\ same_norms (em_norms e) (Some P_File.ex_norms) /\
  let f := P_File.file_of e 0 in let f' := P_File.file_of (mkEmb (em_meta e) (SNdArray other_matrix) (em_vocab e) (em_norms e)) 0 in
  lenN f = lenN f' /\ lenN f = 208 /\ differences 0 f f' = [156; 158; 159].
Proof.
  split; [reflexivity|]. split; [apply P_File.ex_built_norms|]. split; [split; [repeat constructor|split; reflexivity]|]. split; [reflexivity|].
  vm_compute. auto.
Qed.
Example set_metadata_ex : let e := P_File.ex_emb (Some P_File.ex_norms) in
  exists e', emb_set_metadata e (Some false) = (e', Some true) /\ lenN (toml_print P_File.ex_toml false) <= isize_max /\ em_meta e' = Some false.
Proof. eexists. split; [reflexivity|]. split; [vm_compute; discriminate|reflexivity]. Qed.
Example into_parts_ex : let a := mkA2 1 [[P_File.ex_f 1]; [P_File.ex_f 2]] in let ns := [P_File.ex_f 3; P_File.ex_f 4] in
  exists v e, simple_new [[x61]; [x62]] = Ok v /\ emb_new (Md := unit) simple_ops (nd_ops f32) Debug None v a ns = Ok e /\
  emb_into_parts e = (None, v, a, Some ns).
Proof. do 2 eexists. split; [vm_compute; reflexivity|]. split; reflexivity. Qed.
Example view_clone_ex : let v := SvNdArray P_File.ex_matrix in
  swrap_clone_from_mapping (view_storage v) [1; 0] = Ok (SNdArray (mkA2 2 [[P_File.ex_f 1065353217; P_File.ex_f 1]; [P_File.ex_f 1065353216; P_File.ex_f 0]])).
Proof. reflexivity. Qed.

(** ** C103: converted and quantized embeddings in files *)
@thm explicit_storable_thm StoreThms explicit_storable
@thm quantized_storable_thm StoreThms quantized_storable
Definition st_emb : emb P_File.ex_toml := P_File.ex_emb (Some P_File.ex_norms).
Definition st_gemm : array2 f32 -> list (list f32) -> list (list f32) := fun _ l => l.
Example explicit_storable_ex : toml_law P_File.ex_toml /\ any_order (@rev (str * N)) /\
  emb_built Release P_File.ex_toml st_emb (SNdArray P_File.ex_matrix) /\ vocab_made Release (em_vocab st_emb) /\
  vocab_usable (em_vocab st_emb) /\ consistent Release st_gemm st_emb /\
  Forall (fun w => lenN w + 2 < two32) (v_words wrap_ops (em_vocab st_emb)) /\
  exists e', emb_try_to_explicit (swrap_ops st_gemm) Release swrap_clone_from_mapping (@rev _) (@rev _) st_emb = Ok e' /\
  explicit_room e' /\ lenN (ei_ngrams (sv_ix (em_vocab e'))) = 16 /\
  exists f, run_writer (write_file P_File.ex_toml (emb_wrap VExplicit (fun s => s) e')) 0 = Ok f /\ lenN f = 444.
Proof.
  split; [apply P_File.ex_toml_law|]. split; [intros m; apply Permutation.Permutation_rev|]. split; [apply P_File.ex_built_norms|].
  split; [apply (vm_bucket Release P_File.ex_words 3 6 (mkHashIx 2 3) default_bow default_eow); [apply (im_hash 2); [discriminate|reflexivity]|vm_compute; reflexivity]|].
  split; [intros mn mx bow eow H; inv H; split; [split; vm_compute; discriminate|auto]|]. split; [vm_compute; reflexivity|].
  split; [repeat constructor; vm_compute; reflexivity|]. eexists. split; [vm_compute; reflexivity|].
  split; [vm_compute; discriminate|]. split; [vm_compute; reflexivity|]. eexists. split; vm_compute; reflexivity.
Qed.
(** One centroid, the first row. *)
Definition st_trainer : trainer f32 :=
  mkTrainer
    (fun ns bits it at_ a => match a2_rows a with
                             | r :: _ => if (lenN r =? a2_cols a) && (0 <? a2_cols a) then Ok (mkPq None 1 1 (a2_cols a) [[r]]) else Err EQuantization
                             | [] => Err EQuantization
                             end)
    (fun p a => mkA2 1 (map (fun _ => [x00]) (a2_rows a))).
Lemma st_trainer_sound : trainer_sound st_trainer.
Proof.
  split; [constructor|]; cbn [tr_train tr_quantize st_trainer]; intros ns bits it at_ a p.
  - intros H. destruct (a2_rows a) as [|r rs] eqn:E; [discriminate|]. destruct (_ && _) eqn:C; [|discriminate].
    apply andb_true_iff in C as [L _]. apply N.eqb_eq in L. inv H. cbn [pq_cent pq_ql pq_nc pq_sub pq_proj].
    split; [unfold pq_rl; cbn [pq_ql pq_sub]; apply N.mul_1_l|]. split; [reflexivity|]. split; [repeat constructor; auto|discriminate].
  - intros H. destruct (a2_rows a) as [|r rs] eqn:E; [discriminate|]. destruct (_ && _) eqn:C; [|discriminate]. inv H.
    unfold a2_nrows. cbn [a2_rows pq_ql pq_nc]. rewrite E, lenN_map. split; [reflexivity|]. apply Forall_map, Forall_forall.
    intros _ _. repeat constructor.
  - intros (W & _ & L2 & D) H. destruct (a2_rows a) as [|r rs] eqn:E; [discriminate|]. destruct (_ && _) eqn:C; [|discriminate].
    apply andb_true_iff in C as [L C]. apply N.eqb_eq in L. apply N.ltb_lt in C. inv H. split; [|reflexivity].
    unfold pq_ok, pq_rl, pq_new. cbn [pq_cent pq_ql pq_nc pq_sub pq_proj]. rewrite !N.mul_1_l.
    destruct (N.eqb_spec (a2_cols a) 0) as [|NZ]; [lia|]. split; [reflexivity|]. split; [discriminate|]. split; [reflexivity|].
    split; [repeat constructor; exact L|]. split; [exact L2|]. split; [reflexivity|]. revert D.
    unfold dims_ok, a2_nrows. rewrite E. cbn [fold_left]. unfold nonzero. rewrite lenN_cons.
    destruct (N.eqb_spec (a2_cols a) 0) as [|_]; [lia|]. destruct (N.eqb_spec (1 + lenN rs) 0) as [|_]; [lia|].
    change (if 1 =? 0 then 1 else 1) with 1. intros [D1 D2]. split; [|clear D1]; nia.
Qed.
Definition st_view (s : storage_wrap) : res (array2 f32) := match s with SNdArray a => Ok a | _ => Panic PAssert end.
Example quantized_storable_ex : trainer_sound st_trainer /\ st_view (em_storage st_emb) = Ok P_File.ex_matrix /\ nd_ok P_File.ex_matrix /\
  exists e', emb_quantize_using f32_ops st_view st_trainer 1 2 1 1 true st_emb = Ok e' /\
  exists f, run_writer (write_file P_File.ex_toml (emb_wrap (fun v => v) SQuantized e')) 0 = Ok f /\ lenN f = 216.
Proof.
  split; [apply st_trainer_sound|]. split; [reflexivity|]. split; [apply P_File.ex_nd_ok|].
  eexists. split; [vm_compute; reflexivity|]. eexists. split; vm_compute; reflexivity.
Qed.

(** ** C104: the order of hash maps

    The conversion iterates over hash maps, the order of which differs from run
    to run.  It does not matter for the vectors. *)
@thm explicit_order_thm StoreThms explicit_order | forall (Md S S' F : Type) (o : fops F) (SO : storage_ops F S) (SO' : storage_ops F S') pf,
Example explicit_order_ex : any_order (@rev (str * N)) /\ any_order (fun m : hmap N => m) /\ any_order (@rev (N * N)) /\
  emb_made (nd_ops f32) Debug P_Emb.ex_emb 2 P_Emb.ex_rows /\ vocab_usable (em_vocab P_Emb.ex_emb) /\
  Forall (fun w => utf8_valid w = true) (v_words wrap_ops (em_vocab P_Emb.ex_emb)) /\
  clones nd_clone_from_mapping (nd_ops f32) P_Emb.ex_matrix 2 P_Emb.ex_rows /\
  (forall mn mx bow eow, vocab_range (em_vocab P_Emb.ex_emb) = Some (mn, mx, bow, eow) -> bow = default_bow /\ eow = default_eow) /\
  exists e1 e2, emb_try_to_explicit (nd_ops f32) Debug nd_clone_from_mapping (@rev _) (@rev _) P_Emb.ex_emb = Ok e1 /\
  emb_try_to_explicit (nd_ops f32) Debug nd_clone_from_mapping (fun m => m) (@rev _) P_Emb.ex_emb = Ok e2 /\ em_storage e1 <> em_storage e2.
Proof.
  split; [intros m; apply Permutation.Permutation_rev|]. split; [intros m; apply Permutation.Permutation_refl|].
  split; [intros m; apply Permutation.Permutation_rev|]. split; [apply P_Emb.ex_emb_made|]. split; [apply P_Emb.ex_vocab_usable|].
  split; [repeat constructor|]. split; [apply (MatrixFacts.nd_clones P_Emb.ex_matrix P_Emb.ex_matrix_wf)|].
  split; [intros mn mx bow eow H; inv H; auto|].
  eexists. eexists. split; [vm_compute; reflexivity|]. split; [vm_compute; reflexivity|]. cbn [em_storage]. discriminate.
Qed.
(** The files differ, though: the conversion is not reproducible. *)
Theorem explicit_order_refuted : exists (e : emb P_File.ex_toml) o1 o2 o' e1 e2,
  any_order o1 /\ any_order o2 /\ any_order o' /\ emb_built Release P_File.ex_toml e (em_storage e) /\
  emb_try_to_explicit (swrap_ops st_gemm) Release swrap_clone_from_mapping o1 o' e = Ok e1 /\
  emb_try_to_explicit (swrap_ops st_gemm) Release swrap_clone_from_mapping o2 o' e = Ok e2 /\
  exists f1 f2, run_writer (write_file P_File.ex_toml (emb_wrap VExplicit (fun s => s) e1)) 0 = Ok f1 /\
  run_writer (write_file P_File.ex_toml (emb_wrap VExplicit (fun s => s) e2)) 0 = Ok f2 /\ f1 <> f2.
Proof.
  exists st_emb, (@rev _), (fun m => m), (fun m => m). eexists. eexists.
  split; [intros m; apply Permutation.Permutation_rev|]. split; [intros m; apply Permutation.Permutation_refl|].
  split; [intros m; apply Permutation.Permutation_refl|]. split; [apply P_File.ex_built_norms|].
  split; [vm_compute; reflexivity|]. split; [vm_compute; reflexivity|].
  eexists. eexists. split; [vm_compute; reflexivity|]. split; [vm_compute; reflexivity|]. discriminate.
Qed.
Print Assumptions explicit_order_refuted.

(** ** C105: text, text with dimensions and word2vec files hold the same embeddings, and they are canonical *)
@thm formats_agree_thm RewriteThms formats_agree | forall (P : ftext_ops), ftext_law P -> forall (Md S : Type) (SO : storage_ops f32 S) (pf : profile) (e : embeddings Md vocab_wrap S f32) (cols : N) (rows : list (list f32)), emb_made SO pf e cols rows -> norms_fit e -> Forall text_word (v_words wrap_ops (em_vocab e)) -> Forall binary_word (v_words wrap_ops (em_vocab e)) ->
@thm floret_rewrite_thm RewriteThms floret_rewrite | forall (P : ftext_ops), ftext_law P -> forall (pf : profile) (Md : Type) (e : embeddings Md (subword_vocab floret_indexer) (array2 f32) f32) (ws : list str) (mn mx nb nh seed : N) (ix : floret_indexer) (bow eow : str), floret_indexer_new nb nh seed = Ok ix -> sub_new_with_boundaries floret_ops pf ws mn mx ix bow eow = Ok (em_vocab e) -> emb_new_with_maybe_norms (sub_ops floret_ops) (nd_ops f32) pf (em_meta e) (em_vocab e) (em_storage e) (em_norms e) = Ok e -> a2_wf (em_storage e) -> Forall (fun n => n < two32) [mn; mx; seed] -> mn <= mx -> ~ In x20 bow /\ utf8_valid bow = true -> ~ In x0a eow /\ utf8_valid eow = true -> a2_cols (em_storage e) <> 0 -> nb * a2_cols (em_storage e) * 4 <= isize_max -> Forall (Forall (fun x => f32_is_nan x = false)) (dropN (lenN ws) (a2_rows (em_storage e))) ->

(** Embeddings with norms: what is read back has the products. *)
Example formats_agree_ex : ftext_law P_Text.ex_P /\ emb_made (nd_ops f32) Debug P_Emb.ex_emb 2 P_Emb.ex_rows /\ norms_fit P_Emb.ex_emb /\
  Forall text_word (v_words wrap_ops (em_vocab P_Emb.ex_emb)) /\ Forall binary_word (v_words wrap_ops (em_vocab P_Emb.ex_emb)) /\
  v_words wrap_ops (em_vocab P_Emb.ex_emb) <> [] /\ dims_fit (v_words_len wrap_ops (em_vocab P_Emb.ex_emb)) 2 /\
  binary_fits (v_words_len wrap_ops (em_vocab P_Emb.ex_emb)) 2 /\
  exists text w2v raw, run_writer (write_text P_Text.ex_P wrap_ops (nd_ops f32) true P_Emb.ex_emb) 0 = Ok text /\
  run_reader (read_text_raw (Md := unit) P_Text.ex_P Debug false) text = Ok raw /\
  run_writer (write_word2vec wrap_ops (nd_ops f32) true (as_wrap raw)) 0 = Ok w2v /\
  run_writer (write_word2vec wrap_ops (nd_ops f32) true P_Emb.ex_emb) 0 = Ok w2v /\
  run_reader (read_word2vec_raw (Md := unit) Debug true) w2v = Ok raw /\ a2_rows (em_storage raw) <> P_Emb.ex_rows.
Proof.
  split; [apply P_Text.ex_P_law|]. split; [apply P_Emb.ex_emb_made|]. split; [apply P_Text.ex_norms_fit|]. split; [apply P_Text.ex_text_words|].
  split; [|split; [discriminate|split; [split; vm_compute; discriminate|split; [split; vm_compute; repeat split; try discriminate; repeat constructor|]]]].
  - constructor; [|constructor; [|constructor]].
    + apply (P_Text.plain_word _ [101; 101; 110]); [reflexivity|reflexivity|repeat constructor|cbn; intuition discriminate].
    + apply (P_Text.plain_word _ [116; 119; 101; 101]); [reflexivity|reflexivity|repeat constructor|cbn; intuition discriminate].
  - eexists. eexists. eexists. split; [vm_compute; reflexivity|]. split; [vm_compute; reflexivity|]. split; [vm_compute; reflexivity|].
    split; [vm_compute; reflexivity|]. split; [vm_compute; reflexivity|]. vm_compute. discriminate.
Qed.
(** The hypotheses of [floret_rewrite_thm] are those of [P_Text.floret_round_trip_ex]. *)
Example floret_rewrite_ex : exists out e', run_writer (write_floret_text P_Text.ex_P Debug (P_Text.floret_emb [x3c] [x20; x3e])) 0 = Ok out /\
  run_reader (read_floret_text (Md := unit) P_Text.ex_P Debug) out = Ok e' /\ sv_words (em_vocab e') <> sv_words (em_vocab (P_Text.floret_emb [x3c] [x20; x3e])) /\
  run_writer (write_floret_text P_Text.ex_P Debug e') 0 = Ok out.
Proof. eexists. eexists. split; [vm_compute; reflexivity|]. split; [vm_compute; reflexivity|]. split; [discriminate|vm_compute; reflexivity]. Qed.
(** This holds for the raw readers only: after [read_word2vec_binary], which
    stores directions and lengths, even multiplying with the lengths again
    does not give the file back.  The vector [1 1] is one that changes. *)
Theorem normalized_rewrite_refuted : exists (e : embeddings unit vocab_wrap (array2 f32) f32) file norm file',
  emb_made (nd_ops f32) Debug e 2 [[f32_of_N 1; f32_of_N 1]] /\ em_norms e = None /\
  run_writer (write_word2vec wrap_ops (nd_ops f32) false e) 0 = Ok file /\
  run_reader (read_word2vec (Md := unit) Debug false) file = Ok norm /\
  run_writer (write_word2vec wrap_ops (nd_ops f32) true (as_wrap norm)) 0 = Ok file' /\ file' <> file.
Proof.
  exists (P_Sim.sim_emb [[x61]] [[f32_of_N 1; f32_of_N 1]]). eexists. eexists. eexists.
  split; [apply P_Sim.sim_emb_made; [vm_compute; reflexivity|reflexivity|repeat constructor]|]. split; [reflexivity|].
  split; [vm_compute; reflexivity|]. split; [vm_compute; reflexivity|]. split; [vm_compute; reflexivity|]. vm_compute. discriminate.
Qed.
Print Assumptions normalized_rewrite_refuted.

(** ** C106: what survives writing and reading, exactly *)
@thm file_writes_thm SurviveThms file_writes
@thm file_survives_thm SurviveThms file_survives
@thm file_long_word_thm SurviveThms file_long_word
@thm text_survives_thm SurviveThms text_survives | forall (P : ftext_ops), ftext_law P -> forall (Md S : Type) (SO : storage_ops f32 S) (pf : profile) (e : embeddings Md vocab_wrap S f32) (cols : N) (rows : list (list f32)), emb_made SO pf e cols rows -> norms_fit e ->
@thm text_dims_survives_thm SurviveThms text_dims_survives | forall (P : ftext_ops), ftext_law P -> forall (Md S : Type) (SO : storage_ops f32 S) (pf : profile) (e : embeddings Md vocab_wrap S f32) (cols : N) (rows : list (list f32)), emb_made SO pf e cols rows -> norms_fit e ->
@thm binary_survives_thm SurviveThms binary_survives | forall (Md S : Type) (SO : storage_ops f32 S) (pf : profile) (e : embeddings Md vocab_wrap S f32) (cols : N) (rows : list (list f32)), emb_made SO pf e cols rows -> norms_fit e ->

@thm floret_survives_thm SurviveThms floret_survives | forall (P : ftext_ops), ftext_law P -> forall (pf : profile) (Md : Type) (e : embeddings Md (subword_vocab floret_indexer) (array2 f32) f32) (ws : list str) (mn mx nb nh seed : N) (ix : floret_indexer) (bow eow : str), floret_indexer_new nb nh seed = Ok ix -> sub_new_with_boundaries floret_ops pf ws mn mx ix bow eow = Ok (em_vocab e) -> emb_new_with_maybe_norms (sub_ops floret_ops) (nd_ops f32) pf (em_meta e) (em_vocab e) (em_storage e) (em_norms e) = Ok e -> a2_wf (em_storage e) -> nb * a2_cols (em_storage e) * 4 <= isize_max ->
@thm fasttext_survives_thm SurviveThms ft_vocab_survives | forall (pf : profile) (T : toml_ops) (config_table : ft_config -> option (toml_table T)) (S : Type) (SO : storage_ops f32 S) (e : embeddings (toml_table T) (subword_vocab ft_indexer) S f32) (cols : N) (rows : list (list f32)),

(** A word of 2^32 bytes: [file_long_word_thm] applies. *)
Definition long_word : str := repeat x61 (N.to_nat two32).
Definition long_emb : emb P_File.ex_toml :=
  mkEmb None (SNdArray (mkA2 1 [[f32_of_N 1]])) (VSimple (mkSimple (create_indices [long_word]) [long_word])) None.
Example file_long_word_ex : toml_law P_File.ex_toml /\ in_memory (em_storage long_emb) /\ not_explicit (em_vocab long_emb) /\
  simple_new [long_word] = Ok (mkSimple (create_indices [long_word]) [long_word]) /\
  Exists (fun w => two32 <= lenN w) (v_words wrap_ops (em_vocab long_emb)).
Proof.
  split; [apply P_File.ex_toml_law|]. split; [exact I|]. split; [exact I|]. split.
  - apply VocabFacts.simple_new_NoDup. constructor; [intros []|constructor].
  - constructor. unfold long_word, lenN. rewrite repeat_length, N2Nat.id. apply N.le_refl.
Qed.
(** Both sides of [file_survives_thm] hold for [P_File.ex_emb], and neither
    for embeddings with a smallest n-gram length of 2^32, of which the file
    holds the lower 32 bits. *)
Definition long_ngrams : res (emb P_File.ex_toml) :=
  let* ix := hash_indexer_new 2 in let* v := sub_new hash_ops Release [[x61]] two32 (two32 + 1) ix in
  Ok (mkEmb None (SNdArray (mkA2 1 [[f32_of_N 1]; [f32_of_N 2]; [f32_of_N 3]; [f32_of_N 4]; [f32_of_N 5]])) (VBucket v) None).
Example file_survives_ex :
  emb_built Release P_File.ex_toml (P_File.ex_emb (Some P_File.ex_norms)) (em_storage (P_File.ex_emb (Some P_File.ex_norms))) /\
  exists e bytes e' s', long_ngrams = Ok e /\ run_writer (write_file P_File.ex_toml e) 0 = Ok bytes /\
  read_file Release P_File.ex_toml (mkStream bytes 0) = (Ok e', s') /\ e' <> e.
Proof.
  split; [apply P_File.ex_built_norms|]. eexists. eexists. eexists. eexists.
  split; [vm_compute; reflexivity|]. split; [vm_compute; reflexivity|]. split; [vm_compute; reflexivity|]. discriminate.
Qed.
(** Words with a space: accepted by every constructor, written to every
    format, and then not read as they were; a space at the end of the only
    word is even lost without an error. *)
Definition spaced : embeddings unit vocab_wrap (array2 f32) f32 := P_Sim.sim_emb [[x61; x20]] [[f32_of_N 1; f32_of_N 1]].
Example text_survives_ex : ftext_law P_Text.ex_P /\
  emb_made (nd_ops f32) Debug spaced 2 [[f32_of_N 1; f32_of_N 1]] /\ norms_fit spaced /\
  emb_made (nd_ops f32) Debug P_Emb.ex_emb 2 P_Emb.ex_rows /\ norms_fit P_Emb.ex_emb /\
  Forall text_word (v_words wrap_ops (em_vocab P_Emb.ex_emb)) /\
  exists text w2v e', run_writer (write_text P_Text.ex_P wrap_ops (nd_ops f32) false spaced) 0 = Ok text /\
  run_reader (read_text_raw (Md := unit) P_Text.ex_P Debug false) text = Ok e' /\ v_words simple_ops (em_vocab e') = [[x61]] /\
  run_writer (write_word2vec wrap_ops (nd_ops f32) false spaced) 0 = Ok w2v /\
  run_reader (read_word2vec_raw (Md := unit) Debug false) w2v <> Ok e'.
Proof.
  split; [apply P_Text.ex_P_law|]. split; [apply P_Sim.sim_emb_made; [vm_compute; reflexivity|reflexivity|repeat constructor]|].
  split; [intros ns E; discriminate|]. split; [apply P_Emb.ex_emb_made|]. split; [apply P_Text.ex_norms_fit|]. split; [apply P_Text.ex_text_words|].
  eexists. eexists. eexists. split; [vm_compute; reflexivity|]. split; [vm_compute; reflexivity|]. split; [reflexivity|].
  split; [vm_compute; reflexivity|]. vm_compute. discriminate.
Qed.
(** Markers with a space and with a newline: see also [P_Text.floret_markers_refuted]. *)
Example floret_survives_ex : ftext_law P_Text.ex_P /\
  (forall bow eow, P_Text.floret_emb_built bow eow /\ a2_wf (em_storage (P_Text.floret_emb bow eow)) /\ 2 * a2_cols (em_storage (P_Text.floret_emb bow eow)) * 4 <= isize_max) /\
  (exists out e', run_writer (write_floret_text P_Text.ex_P Debug (P_Text.floret_emb [x3c] [x20; x3e])) 0 = Ok out /\
   run_reader (read_floret_text (Md := unit) P_Text.ex_P Debug) out = Ok e' /\
   floret_result e' 2 1 3 6 3 7 [x3c] [x20; x3e] [[f32_of_N 1]; [f32_of_N 2]]) /\
  (exists out e', run_writer (write_floret_text P_Text.ex_P Debug (P_Text.floret_emb [x20; x3c] [x3e])) 0 = Ok out /\
   run_reader (read_floret_text (Md := unit) P_Text.ex_P Debug) out = Ok e' /\ sv_bow (em_vocab e') = [] /\ sv_eow (em_vocab e') = [x3c; x20; x3e]).
Proof.
  split; [apply P_Text.ex_P_law|]. split; [intros bow eow; split; [apply P_Text.floret_emb_ok|split; [repeat constructor|vm_compute; discriminate]]|]. split.
  - eexists. eexists. split; [vm_compute; reflexivity|]. split; [vm_compute; reflexivity|]. repeat split; vm_compute; reflexivity.
  - eexists. eexists. split; [vm_compute; reflexivity|]. split; [vm_compute; reflexivity|]. split; vm_compute; reflexivity.
Qed.
(** Other boundary markers: written, but the default ones are read. *)
Example fasttext_survives_ex :
  FastTextSpec.ft_emb_made (nd_ops f32) Debug P_FastText.ft_ex 2 P_FastText.ft_rows /\ lenN (sv_words (em_vocab P_FastText.ft_ex)) < two32 /\
  dims_ok [lenN P_FastText.ft_rows; 2] 4 /\ (forall c, P_FastText.ft_table c <> None) /\
  let other := P_FastText.ft_emb [x3c; x3c] default_eow P_FastText.ft_rows (Some [f32_of_N 2; f32_of_N 4]) in
  FastTextSpec.ft_emb_made (nd_ops f32) Debug other 2 P_FastText.ft_rows /\
  exists out e', run_writer (write_fasttext Debug P_FastText.ft_T (nd_ops f32) other) 0 = Ok out /\
  run_reader (read_fasttext Debug P_FastText.ft_T P_FastText.ft_table false) out = Ok e' /\ sv_bow (em_vocab e') = default_bow.
Proof.
  split; [apply P_FastText.ft_ex_made|]. split; [reflexivity|]. split; [split; vm_compute; discriminate|]. split; [discriminate|]. cbv zeta.
  split; [apply P_FastText.ft_emb_ok; [reflexivity|reflexivity|repeat constructor|intros ns H; injection H as <-; reflexivity]|].
  eexists. eexists. split; [vm_compute; reflexivity|]. split; [vm_compute; reflexivity|]. reflexivity.
Qed.

(** ** C108: everything a program can obtain

    Constructors, readers, changes, conversions, quantization and files in any
    order give embeddings with a row for every index of the vocabulary and a
    norm for every word.  Files that the crate did not write are the exception:
    [P_File.file_consistent_refuted]. *)
@thm obtained_sound_thm ProgramThms obtained_sound | forall (P : ftext_ops) (pf : profile) (T : toml_ops) (gemm : array2 f32 -> list (list f32) -> list (list f32)),
@thm obtained_works_thm ProgramThms obtained_works | forall (P : ftext_ops) (pf : profile) (T : toml_ops) (gemm : array2 f32 -> list (list f32) -> list (list f32)),
(** Built, written and mapped, converted to explicit n-grams, with new metadata. *)
Lemma st_emb_obtained : obtained P_Text.ex_P Release P_File.ex_toml st_gemm st_emb.
Proof.
  apply (ob_new _ _ _ _ (em_meta st_emb) (em_vocab st_emb) (em_storage st_emb) 2 (a2_rows P_File.ex_matrix) P_File.ex_norms).
  - apply (vm_bucket Release P_File.ex_words 3 6 (mkHashIx 2 3) default_bow default_eow); [apply (im_hash 2); [discriminate|reflexivity]|vm_compute; reflexivity].
  - split; [intros mn mx bow eow H; inv H; split; reflexivity|repeat constructor].
  - apply (hm_nd st_gemm P_File.ex_matrix). apply P_File.ex_nd_ok.
  - vm_compute. reflexivity.
Qed.
Example obtained_ex : toml_law P_File.ex_toml /\
  (forall bytes em sm ee,
    run_writer (write_file P_File.ex_toml st_emb) 3 = Ok bytes ->
    mmap_embeddings P_File.ex_toml (read_vocab_wrap Release) (mmap_storage_wrap Debug) (mkStream bytes 3) = (Ok em, sm) ->
    emb_try_to_explicit (swrap_ops st_gemm) Release swrap_clone_from_mapping (@rev _) (@rev _) em = Ok ee ->
    obtained P_Text.ex_P Release P_File.ex_toml st_gemm em /\
    obtained P_Text.ex_P Release P_File.ex_toml st_gemm (fst (emb_set_metadata (emb_wrap VExplicit (fun s => s) ee) (em_meta st_emb)))) /\
  (let r := let* bytes := run_writer (write_file P_File.ex_toml st_emb) 3 in
            let* em := fst (mmap_embeddings P_File.ex_toml (read_vocab_wrap Release) (mmap_storage_wrap Debug) (mkStream bytes 3)) in
            emb_try_to_explicit (swrap_ops st_gemm) Release swrap_clone_from_mapping (@rev _) (@rev _) em in
   match r with
   | Ok ee => sv_words (em_vocab ee) = P_File.ex_words /\ fst (st_shape (swrap_ops st_gemm) (em_storage ee)) = 6
   | _ => False
   end).
Proof.
  split; [apply P_File.ex_toml_law|]. split; [|vm_compute; auto]. intros bytes em sm ee W M E.
  assert (obtained P_Text.ex_P Release P_File.ex_toml st_gemm em) as OB.
  { rewrite <- (app_nil_r bytes) in M. eapply ob_mmap; [exact st_emb_obtained|exact P_File.ex_built_norms|exact W| |exact M]. discriminate. }
  split; [exact OB|]. apply ob_metadata. eapply ob_explicit; [| |exact OB|exact E]; intros m; apply Permutation.Permutation_rev.
Qed.
