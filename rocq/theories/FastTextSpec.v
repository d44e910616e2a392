(** * Vocabulary of the statements about fastText models.

    Nothing here is part of the model. *)
From Verif Require Import Base Utf8 F32 Stream ChunkIO Subword Vocab Storage Embeddings TextIO FastText VocabSpec EmbSpec TextSpec FileSpec.
Local Open Scope N_scope.

(** A vocabulary built with the constructor, from a nonzero number of
    buckets. *)
Definition ft_made (pf : profile) (v : subword_vocab ft_indexer) : Prop :=
  exists ws mn mx n ix bow eow, n <> 0 /\ ft_indexer_new n = Ok ix /\
  sub_new_with_boundaries ft_ops pf ws mn mx ix bow eow = Ok v.
Definition vocab_utf8 (v : subword_vocab ft_indexer) : Prop := Forall (fun w => utf8_valid w = true) (sv_words v).

(** ** Rows of words and rows of their subwords *)

(** The rows of the subwords of [w], in order; repeated n-grams and
    collisions count repeatedly. *)
Definition subwords_of (v : subword_vocab ft_indexer) (w : str) (is : list N) : Prop :=
  exists qs iss, queried ft_ops (sv_bow v ++ w ++ sv_eow v) (sv_min v) (sv_max v) qs /\
  answers ft_ops (sv_ix v) qs iss /\ is = map (fun i => lenN (sv_words v) + i) (concat iss).
Definition subwords_are (v : subword_vocab ft_indexer) (subs : str -> list N) : Prop :=
  forall w, In w (sv_words v) -> subwords_of v w (subs w).

Section Rows.
  Context {F : Type} (o : fops F).

  Definition at_ (j : nat) (r : list F) : F := nth j r (fzero o).

  (** The mean of [own] and [subs], component by component. *)
  Definition mean_row (own : list F) (subs : list (list F)) : list F :=
    match subs with
    | [] => own
    | _ => map (fun j => fdiv o (fold_left (fun a r => fadd o a (at_ j r)) subs (at_ j own)) (fof_N o (lenN subs + 1)))
               (seq 0 (length own))
    end.

  (** What is written such that the mean is [d] times its norm. *)
  Definition unmean_row (d : list F) (n : F) (subs : list (list F)) : list F :=
    match subs with
    | [] => map (fun x => fmul o x n) d
    | _ => map (fun j => fold_left (fun a r => fsub o a (at_ j r)) subs
                                   (fmul o (fmul o (at_ j d) n) (fof_N o (lenN subs + 1))))
               (seq 0 (length d))
    end.

  (** The rows of the words change as [f] says, given their subword rows; the
      other rows do not. *)
  Definition word_rows (v : subword_vocab ft_indexer) (subs : str -> list N) (rows rows' : list (list F))
             (f : N -> list F -> list (list F) -> list F) : Prop :=
    lenN rows' = lenN rows /\
    (forall i, lenN (sv_words v) <= i -> nthN rows' i = nthN rows i) /\
    (forall i w, nthN (sv_words v) i = Some w -> exists own rs,
       nthN rows i = Some own /\ selects rows (subs w) rs /\ nthN rows' i = Some (f i own rs)).

  (** Reading: means. *)
  Definition averaged (v : subword_vocab ft_indexer) (subs : str -> list N) (rows rows' : list (list F)) : Prop :=
    word_rows v subs rows rows' (fun _ own rs => mean_row own rs).
  (** Writing, given the norms of the words. *)
  Definition unaveraged (v : subword_vocab ft_indexer) (subs : str -> list N) (norms : N -> F) (rows rows' : list (list F)) : Prop :=
    word_rows v subs rows rows' (fun i own rs => unmean_row own (norms i) rs).

  (** The first [k] rows are divided by their lengths [ns]. *)
  Definition first_normalized (k : N) (rows rows' : list (list F)) (ns : list F) : Prop :=
    lenN rows' = lenN rows /\ lenN ns = k /\
    (forall i, k <= i -> nthN rows' i = nthN rows i) /\
    (forall i r, i < k -> nthN rows i = Some r -> exists d n,
       nthN rows' i = Some d /\ nthN ns i = Some n /\ scaled_by_length o r d n).
End Rows.

(** Embeddings with valid words, consistent shapes and a usable vocabulary. *)
Definition ft_emb_made {Md S F} (SO : storage_ops F S) (pf : profile) (e : embeddings Md (subword_vocab ft_indexer) S F)
           (cols : N) (rows : list (list F)) : Prop :=
  ft_made pf (em_vocab e) /\ vocab_utf8 (em_vocab e) /\ vocab_usable (VFastText (em_vocab e)) /\ st_matrix SO (em_storage e) cols rows /\
  emb_new_with_maybe_norms (sub_ops ft_ops) SO pf (em_meta e) (em_vocab e) (em_storage e) (em_norms e) = Ok e /\
  (forall ns, em_norms e = Some ns -> lenN ns = lenN (sv_words (em_vocab e))).
(** The norm of word [i]; 1 if there are no norms. *)
Definition ft_norm {Md S F} (o : fops F) (e : embeddings Md (subword_vocab ft_indexer) S F) (i : N) : F :=
  match em_norms e with None => fone o | Some ns => nth (N.to_nat i) ns (fone o) end.

(** ** Files *)

Definition u32s_bytes (l : list N) : list byte := flat_map (le_bytes 4) l.

(** The numbers of a configuration, in the order of the file. *)
Definition config_numbers (c : ft_config) : list N :=
  [fc_dims c; fc_window c; fc_epoch c; fc_min_count c; fc_neg c; fc_word_ngrams c;
   match fc_loss c with HierarchicalSoftmax => 1 | NegativeSampling => 2 | Softmax => 3 end;
   match fc_model c with Cbow => 1 | SkipGram => 2 | Supervised => 3 end;
   fc_bucket c; fc_min_n c; fc_max_n c; fc_lr c].

(** The contents of a file.  An entry has a name, a frequency and a kind (0
    for words, 1 for labels). *)
Record ft_file := mkFtFile {
  ff_magic : N; ff_version : N; ff_numbers : list N; ff_threshold : N;
  ff_nwords : N; ff_nlabels : N; ff_tokens : N; ff_prune : N;
  ff_entries : list (list byte * N * N); ff_quant : N; ff_matrix : array2 f32
}.
Definition ft_entry_bytes (it : list byte * N * N) : list byte :=
  let '(name, freq, kind) := it in name ++ x00 :: le_bytes 8 freq ++ le_bytes 1 kind.
Definition ft_bytes (f : ft_file) : list byte :=
  u32s_bytes (ff_magic f :: ff_version f :: ff_numbers f) ++ le_bytes 8 (ff_threshold f) ++
  u32s_bytes [lenN (ff_entries f); ff_nwords f; ff_nlabels f] ++ le_bytes 8 (ff_tokens f) ++ le_bytes 8 (ff_prune f) ++
  flat_map ft_entry_bytes (ff_entries f) ++ le_bytes 1 (ff_quant f) ++
  le_bytes 8 (lenN (a2_rows (ff_matrix f))) ++ le_bytes 8 (a2_cols (ff_matrix f)) ++
  f32s_bytes (concat (a2_rows (ff_matrix f))).

(** The fields are in the ranges of their types. *)
Definition ft_entry_ok (it : list byte * N * N) : Prop :=
  let '(name, freq, kind) := it in ~ In x00 name /\ freq < two64 /\ kind < 256.
Definition ft_fields_ok (f : ft_file) : Prop :=
  Forall (fun n => n < two32) (ff_magic f :: ff_version f :: ff_numbers f) /\ lenN (ff_numbers f) = 12 /\ ff_threshold f < two64 /\
  Forall (fun n => n < two32) [lenN (ff_entries f); ff_nwords f; ff_nlabels f] /\ ff_tokens f < two64 /\ ff_prune f < two64 /\
  Forall ft_entry_ok (ff_entries f) /\ ff_quant f < 256.
Definition ft_matrix_ok (a : array2 f32) : Prop :=
  a2_wf a /\ lenN (a2_rows a) < two64 /\ a2_cols a < two64 /\ dims_ok [lenN (a2_rows a); a2_cols a] 4.

(** Models that can be read: not newer than version 12, with a known loss
    function and model type, without labels, not pruned (the size of the
    pruning index is negative) and not quantized. *)
Definition ft_config_is (f : ft_file) (c : ft_config) : Prop :=
  config_numbers c = ff_numbers f /\ fc_threshold c = ff_threshold f.
Definition ft_supported (f : ft_file) : Prop :=
  ff_magic f = 793712314 /\ ff_version f <= 12 /\ (exists c, ft_config_is f c) /\
  ff_nlabels f = 0 /\ 2 ^ 63 <= ff_prune f /\ Forall (fun it => snd it = 0) (ff_entries f).

(** The words of a file. *)
Definition ft_words (lossy : bool) (f : ft_file) (ws : list str) : Prop :=
  Forall2 (fun it w => decodes lossy (fst (fst it)) w) (ff_entries f) ws.

(** Some row that is needed for a word is missing from a matrix with [k]
    rows. *)
Definition rows_missing (ws : list str) (subs : str -> list N) (k : N) : Prop :=
  k < lenN ws \/ exists w j, In w ws /\ In j (subs w) /\ k <= j.

(** What a model with the matrix [a] is read as. *)
Definition ft_contents (T : toml_ops) (config_table : ft_config -> option (toml_table T)) (pf : profile)
           (a : array2 f32) (c : ft_config) (ws : list str) (subs : str -> list N)
           (e : embeddings (toml_table T) (subword_vocab ft_indexer) (array2 f32) f32) : Prop :=
  sub_new ft_ops pf ws (fc_min_n c) (fc_max_n c) (mkFtIx (fc_bucket c)) = Ok (em_vocab e) /\
  subwords_are (em_vocab e) subs /\
  (exists rows ns, averaged f32_ops (em_vocab e) subs (a2_rows a) rows /\
    first_normalized f32_ops (lenN ws) rows (a2_rows (em_storage e)) ns /\ em_norms e = Some ns) /\
  a2_cols (em_storage e) = a2_cols a /\ em_meta e = config_table c /\ config_table c <> None.
Definition ft_result (T : toml_ops) (config_table : ft_config -> option (toml_table T)) (pf : profile) (f : ft_file) :=
  ft_contents T config_table pf (ff_matrix f).

(** What embeddings are written as; metadata that is not needed is zero. *)
Definition ft_written {Md S} (e : embeddings Md (subword_vocab ft_indexer) S f32) (cols : N) (rows : list (list f32)) : ft_file :=
  let v := em_vocab e in
  mkFtFile 793712314 12 [cols; 0; 0; 0; 0; 1; 1; 1; fi_buckets (sv_ix v); sv_min v; sv_max v; 0] 0
    (lenN (sv_words v)) 0 0 (2 ^ 64 - 1) (map (fun w => (w, 0, 0)) (sv_words v)) 0 (mkA2 cols rows).
