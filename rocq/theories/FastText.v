(** * fastText models (/repo/src/compat/fasttext/io.rs). *)
From Verif Require Import Base Utf8 Stream F32 ChunkIO Subword Vocab Storage Embeddings TextIO.
Local Open Scope N_scope.

(** [FASTTEXT_FILEFORMAT_MAGIC], [FASTTEXT_VERSION], lines 21-22. *)
Definition ft_magic : N := 793712314.
Definition ft_version : N := 12.

(** [Loss], lines 318-323, and [Model], lines 361-366. *)
Inductive ft_loss := HierarchicalSoftmax | NegativeSampling | Softmax.
Inductive ft_model := Cbow | SkipGram | Supervised.

(** [Config], lines 180-195; the sampling threshold ([f64]) is kept as its
    bit pattern. *)
Record ft_config := mkFtCfg {
  fc_dims : N; fc_window : N; fc_epoch : N; fc_min_count : N; fc_neg : N;
  fc_word_ngrams : N; fc_loss : ft_loss; fc_model : ft_model; fc_bucket : N;
  fc_min_n : N; fc_max_n : N; fc_lr : N; fc_threshold : N
}.

(** [Loss::read], lines 326-339; [Model::read], lines 369-382. *)
Definition read_loss : reader ft_loss :=
  n <- read_u32 ;;
  match n with
  | 1 => ret HierarchicalSoftmax
  | 2 => ret NegativeSampling
  | 3 => ret Softmax
  | _ => fail EFormat
  end.
Definition read_model : reader ft_model :=
  n <- read_u32 ;;
  match n with
  | 1 => ret Cbow
  | 2 => ret SkipGram
  | 3 => ret Supervised
  | _ => fail EFormat
  end.
(** [Loss::write], lines 341-357; [Model::write], lines 384-400. *)
Definition loss_num (l : ft_loss) : N :=
  match l with HierarchicalSoftmax => 1 | NegativeSampling => 2 | Softmax => 3 end.
Definition model_num (m : ft_model) : N :=
  match m with Cbow => 1 | SkipGram => 2 | Supervised => 3 end.

(** [Config::read], lines 221-274. *)
Definition read_config : reader ft_config :=
  dims <- read_u32 ;;
  window <- read_u32 ;;
  epoch <- read_u32 ;;
  min_count <- read_u32 ;;
  neg <- read_u32 ;;
  word_ngrams <- read_u32 ;;
  loss <- read_loss ;;
  model <- read_model ;;
  bucket <- read_u32 ;;
  min_n <- read_u32 ;;
  max_n <- read_u32 ;;
  lr <- read_u32 ;;
  threshold <- read_u64 ;;
  ret (mkFtCfg dims window epoch min_count neg word_ngrams loss model bucket min_n max_n lr threshold).

(** [Config::write], lines 276-314. *)
Definition write_config (c : ft_config) : writer unit :=
  write_u32 (fc_dims c) ;;;
  write_u32 (fc_window c) ;;;
  write_u32 (fc_epoch c) ;;;
  write_u32 (fc_min_count c) ;;;
  write_u32 (fc_neg c) ;;;
  write_u32 (fc_word_ngrams c) ;;;
  write_u32 (loss_num (fc_loss c)) ;;;
  write_u32 (model_num (fc_model c)) ;;;
  write_u32 (fc_bucket c) ;;;
  write_u32 (fc_min_n c) ;;;
  write_u32 (fc_max_n c) ;;;
  write_u32 (fc_lr c) ;;;
  write_u64 (fc_threshold c).

(** ** Vocabulary *)

(** One entry of [read_vocab], lines 533-546. *)
Definition read_ft_entry (lossy : bool) : reader str :=
  w <- read_string x00 lossy ;;
  _ <- read_u64 ;;
  t <- read_u8 ;;
  if negb (t =? 0) then fail EFormat else ret w.

(** [read_vocab], lines 502-557.  [prune_idx_size >= 0] as a signed number. *)
Definition read_ft_vocab (pf : profile) (c : ft_config) (lossy : bool)
  : reader (subword_vocab ft_indexer) :=
  size <- read_u32 ;;
  _ <- read_u32 ;;
  n_labels <- read_u32 ;;
  if 0 <? n_labels then fail EFormat else
  _ <- read_u64 ;;
  prune <- read_u64 ;;
  if prune <=? isize_max then fail EFormat else
  reserve size 24 ;;;
  words <- repeat_m size (read_ft_entry lossy) ;;
  ix <- lift (ft_indexer_new (fc_bucket c)) ;;
  lift (sub_new ft_ops pf words (fc_min_n c) (fc_max_n c) ix).

(** The type of a vocabulary entry, lines 591-593: a failure to write it is
    reported as a failure to read. *)
Definition write_entry_type : writer unit := as_read (write_u8 0).

(** [write_vocab], lines 560-597. *)
Definition write_ft_vocab (v : subword_vocab ft_indexer) : writer unit :=
  n <- lift (if sub_words_len v <? two32 then Ok (sub_words_len v) else Err EOverflow) ;;
  write_u32 n ;;;
  write_u32 n ;;;
  write_u32 0 ;;;
  write_u64 0 ;;;
  write_u64 (two64 - 1) ;;;
  for_each (sv_words v) (fun w =>
    write_bytes w ;;; write_u8 0 ;;; write_u64 0 ;;; write_entry_type).

(** ** Embeddings *)
Section AddSubwords.
  Context {F : Type} (o : fops F) (pf : profile).

  (** Loop body of [add_subword_embeddings], lines 408-423: the row of a word
      becomes the mean of itself and its subword rows. *)
  Definition add_subwords_step (v : subword_vocab ft_indexer) (a : array2 F) (iw : N * str)
    : res (array2 F) :=
    let '(i, w) := iw in
    let* r := sub_subword_indices ft_ops pf v w in
    match r with
    | None => Ok a
    | Some is =>
        let* own := a2_row a i in
        let* sum := rfold (fun acc j => let* x := a2_row a j in Ok (vadd o acc x)) is own in
        let* rows := set_row (a2_rows a) i (vdivs o sum (fof_N o (lenN is + 1))) in
        Ok (mkA2 (a2_cols a) rows)
    end.
  (** [add_subword_embeddings], lines 407-424. *)
  Definition add_subword_embeddings (v : subword_vocab ft_indexer) (a : array2 F) : res (array2 F) :=
    rfold (add_subwords_step v) (enumerate (sv_words v)) a.

  (** The vector of a word as written by [write_embeddings], lines 473-482. *)
  Definition ft_word_vector {S} (SO : storage_ops F S) (v : subword_vocab ft_indexer) (s : S)
             (w : str) (en : list F * F) : res (list F) :=
    let x := vscale o (fst en) (snd en) in
    let* r := sub_subword_indices ft_ops pf v w in
    match r with
    | None => Ok x
    | Some is =>
        rfold (fun acc j => let* y := st_embedding SO s j in Ok (vsub o acc y))
              is (vscale o x (fof_N o (lenN is + 1)))
    end.
  (** The rows of the words normalised, lines 94-98; slicing beyond the matrix
      panics. *)
  Definition normalize_words (wl : N) (a : array2 F) : res (array2 F * list F) :=
    let* _ := rassert (wl <=? a2_nrows a) PIndexOutOfBounds in
    let '(rows, norms) := l2_normalize_array o (takeN wl (a2_rows a)) in
    Ok (mkA2 (a2_cols a) (rows ++ dropN wl (a2_rows a)), norms).
End AddSubwords.

(** [read_embeddings], lines 427-449. *)
Definition read_ft_matrix : reader (array2 f32) :=
  m <- read_u64 ;;
  n <- read_u64 ;;
  alloc_zeros [m; n] 4 ;;;
  data <- read_f32s (m * n) ;;
  ret (mkA2 n (unflattenN m n data)).

Section FastText.
  Context (pf : profile) (T : toml_ops).
  (** [Table::try_from(config)] of the toml crate. *)
  Variable config_table : ft_config -> option (toml_table T).
  Notation fte S := (embeddings (toml_table T) (subword_vocab ft_indexer) S f32).

  (** [read_fasttext_private], lines 59-120. *)
  Definition read_fasttext (lossy : bool) : reader (fte (array2 f32)) :=
    m <- read_u32 ;;
    if negb (m =? ft_magic) then fail EFormat else
    ver <- read_u32 ;;
    if ft_version <? ver then fail EFormat else
    c <- read_config ;;
    v <- read_ft_vocab pf c lossy ;;
    q <- read_u8 ;;
    if q =? 1 then fail EFormat else
    a0 <- read_ft_matrix ;;
    a1 <- lift (add_subword_embeddings f32_ops pf v a0) ;;
    an <- lift (normalize_words f32_ops (sub_words_len v) a1) ;;
    n <- lift (add64 pf (sub_words_len v) (fc_bucket c)) ;;
    if negb (a2_nrows (fst an) =? n) then fail EMatrixShape else
    match config_table c with
    | None => fail EFormat
    | Some t => lift (emb_new (sub_ops ft_ops) (nd_ops f32) pf (Some t) v (fst an) (snd an))
    end.

  (** [write_embeddings], lines 452-499. *)
  Definition write_ft_matrix {S} (SO : storage_ops f32 S) (e : fte S) : writer unit :=
    let s := em_storage e in
    let v := em_vocab e in
    write_u64 (fst (st_shape SO s)) ;;;
    write_u64 (snd (st_shape SO s)) ;;;
    items <- lift (emb_iter_with_norms f32_ops (sub_ops ft_ops) SO e) ;;
    for_each items (fun '(w, en) =>
      x <- lift (ft_word_vector f32_ops pf SO v s w en) ;; write_f32s x) ;;;
    n <- lift (sub_vocab_len ft_ops pf v) ;;
    for_each (rangeN (n - sub_words_len v)) (fun i =>
      x <- lift (st_embedding SO s (sub_words_len v + i)) ;; write_f32s x).

  (** [write_fasttext], lines 140-175, with [Config::new], lines 200-216. *)
  Definition write_fasttext {S} (SO : storage_ops f32 S) (e : fte S) : writer unit :=
    let v := em_vocab e in
    bucket <- lift (if fi_buckets (sv_ix v) <? two32 then Ok (fi_buckets (sv_ix v)) else Err EOverflow) ;;
    dims <- lift (if snd (st_shape SO (em_storage e)) <? two32
                  then Ok (snd (st_shape SO (em_storage e))) else Err EOverflow) ;;
    let c := mkFtCfg dims 0 0 0 0 1 HierarchicalSoftmax Cbow bucket (sv_min v) (sv_max v) 0 0 in
    write_u32 ft_magic ;;;
    write_u32 ft_version ;;;
    write_config c ;;;
    write_ft_vocab v ;;;
    write_u8 0 ;;;
    write_ft_matrix SO e.
End FastText.
