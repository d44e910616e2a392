(** * Text-based formats (/repo/src/util.rs, /repo/src/compat/text.rs,
    /repo/src/compat/word2vec.rs, /repo/src/compat/floret/io.rs). *)
From Verif Require Import Base Utf8 Stream F32 ChunkIO Subword Vocab Storage Embeddings.
Local Open Scope N_scope.

(** ** Decimal numbers *)

Definition digit (n : N) : byte := Nb (48 + n).

(** [Display for usize]. *)
Fixpoint dec_fuel (fuel : nat) (n : N) (acc : str) : str :=
  match fuel with
  | O => acc
  | Datatypes.S fuel' =>
      let acc := digit (n mod 10) :: acc in
      if n / 10 =? 0 then acc else dec_fuel fuel' (n / 10) acc
  end.
Definition dec_print (n : N) : str := dec_fuel (Datatypes.S (N.size_nat n)) n [].

Definition digit_value (b : byte) : option N :=
  if (48 <=? bN b) && (bN b <=? 57) then Some (bN b - 48) else None.

(** Digits with overflow checks ([checked_mul], [checked_add]). *)
Fixpoint dec_digits (s : str) (acc : N) : option N :=
  match s with
  | [] => Some acc
  | b :: s' =>
      match digit_value b with
      | None => None
      | Some d => let a := acc * 10 + d in if a <? two64 then dec_digits s' a else None
      end
  end.

(** [str::parse::<usize>]: an optional plus sign and at least one digit. *)
Definition dec_parse (s : str) : option N :=
  match s with
  | [] => None
  | b :: s' =>
      if byte_eqb b x2b then match s' with [] => None | _ => dec_digits s' 0 end
      else dec_digits s 0
  end.

(** ** [util::read_string] and [util::read_number], /repo/src/util.rs 88-116 *)

(** Lines 101-116: the last byte is dropped even if it is not the
    delimiter. *)
Definition read_string (delim : byte) (lossy : bool) : reader str :=
  buf <- read_until delim ;;
  let buf := removelast buf in
  if lossy then ret (from_utf8_lossy buf)
  else if utf8_valid buf then ret buf else fail EFormat.

(** Lines 88-99. *)
Definition read_number (delim : byte) : reader N :=
  s <- read_string delim false ;;
  match dec_parse s with Some n => ret n | None => fail EFormat end.

(** ** Floating-point numbers as text: [f32::to_string] and [str::parse]. *)
Record ftext_ops := mkFtext {
  ft_print : f32 -> str;
  ft_parse : str -> option f32
}.

(** What the model assumes of the standard library: printed numbers are
    non-empty, printable ASCII without whitespace, and parse to the same
    number (to some NaN for NaN). *)
Definition ftext_law (P : ftext_ops) : Prop :=
  forall x,
    (exists y, ft_parse P (ft_print P x) = Some y /\
               (f32_is_nan x = false -> y = x) /\
               (f32_is_nan x = true -> f32_is_nan y = true)) /\
    ft_print P x <> [] /\
    Forall (fun b => 33 <= bN b <= 126) (ft_print P x).

(** ** Text embeddings (/repo/src/compat/text.rs) *)

(** [split(is_ascii_whitespace).filter(|p| !p.is_empty())], lines 228-230.
    ASCII bytes do not occur inside multi-byte characters, so splitting the
    bytes is splitting the string. *)
Fixpoint split_ws (s : str) (cur : str) : list str :=
  match s with
  | [] => match cur with [] => [] | _ => [rev cur] end
  | b :: s' =>
      if is_ascii_ws b then
        match cur with [] => split_ws s' [] | _ => rev cur :: split_ws s' [] end
      else split_ws s' (b :: cur)
  end.
Definition fields (s : str) : list str := split_ws s [].

(** The line terminator removed by [read_embeds], lines 212-216. *)
Definition strip_nl (buf : list byte) : list byte :=
  match rev buf with
  | x0a :: r => rev r
  | _ => buf
  end.

(** [Array2::from_shape_vec]. *)
Definition from_shape_vec {F} (rows cols : N) (data : list F) : res (array2 F) :=
  if lenN data =? rows * cols then Ok (mkA2 cols (unflattenN rows cols data))
  else Err EMatrixShape.

(** [data.push(part.parse()?)]. *)
Definition parse_floats (P : ftext_ops) (parts : list str) : res (list f32) :=
  rmap (fun p => match ft_parse P p with Some x => Ok x | None => Err EFormat end) parts.

(** Normalisation of all rows with norms, text.rs 74-78 and the same lines of
    the other readers. *)
Definition normalize_all {Md F} (o : fops F) (pf : profile) (e : embeddings Md simple_vocab (array2 F) F)
  : res (embeddings Md simple_vocab (array2 F) F) :=
  let '(rows, norms) := l2_normalize_array o (a2_rows (em_storage e)) in
  emb_new simple_ops (nd_ops F) pf None (em_vocab e)
          (mkA2 (a2_cols (em_storage e)) rows) norms.

Section Text.
  Context (P : ftext_ops) (pf : profile) {Md : Type}.
  Notation semb := (embeddings Md simple_vocab (array2 f32) f32).

  (** One line: the word and its components, lines 219-241. *)
  Definition text_line (lossy : bool) (buf : list byte) : res (str * list f32) :=
    let* line := if lossy then Ok (from_utf8_lossy buf)
                 else if utf8_valid buf then Ok buf else Err EFormat in
    match fields line with
    | [] => Err EFormat
    | word :: parts => let* xs := parse_floats P parts in Ok (word, xs)
    end.

  (** The loop, lines 204-242; returns the words and all components. *)
  Fixpoint text_lines (fuel : nat) (lossy : bool) : reader (list str * list f32) :=
    match fuel with
    | O => fail EFuel
    | Datatypes.S fuel' =>
        buf <- read_until x0a ;;
        match buf with
        | [] => ret ([], [])
        | _ =>
            wx <- lift (text_line lossy (strip_nl buf)) ;;
            r <- text_lines fuel' lossy ;;
            ret (fst wx :: fst r, snd wx ++ snd r)
        end
    end.
  Definition read_lines (lossy : bool) : reader (list str * list f32) := fun s =>
    text_lines (Datatypes.S (length (s_rest s))) lossy s.

  (** [x / y] on [usize]. *)
  Definition div64 (x y : N) : res N := if y =? 0 then Panic PDivByZero else Ok (x / y).

  (** Checks after the loop, lines 244-266. *)
  Definition text_shape (shape : option (N * N)) (n_words n_data : N) : res (N * N) :=
    match shape with
    | Some (n, dims) =>
        if negb (n_words =? n) then Err EFormat else
        let* d := div64 n_data n in
        if negb (d =? dims) then Err EFormat else Ok (n, dims)
    | None => let* dims := div64 n_data n_words in Ok (n_words, dims)
    end.

  (** [read_embeds], lines 188-274. *)
  Definition read_embeds (shape : option (N * N)) (lossy : bool) : reader semb :=
    match shape with
    | Some (n, dims) =>
        reserve n 24 ;;;
        c <- lift (mul64 pf n dims) ;;
        reserve c 4
    | None => ret tt
    end ;;;
    wd <- read_lines lossy ;;
    let '(words, data) := wd in
    sh <- lift (text_shape shape (lenN words) (lenN data)) ;;
    a <- lift (from_shape_vec (fst sh) (snd sh) data) ;;
    v <- lift (simple_new words) ;;
    lift (emb_new_with_maybe_norms simple_ops (nd_ops f32) pf None v a None).

  (** [read_text_raw], lines 98-105; [read_text(_lossy)], lines 69-85. *)
  Definition read_text_raw (lossy : bool) : reader semb := read_embeds None lossy.
  Definition read_text (lossy : bool) : reader semb :=
    e <- read_text_raw lossy ;; lift (normalize_all f32_ops pf e).

  (** [read_text_dims_raw(_lossy)], lines 168-186;
      [read_text_dims(_lossy)], lines 134-151. *)
  Definition read_text_dims_raw (lossy : bool) : reader semb :=
    n <- read_number x20 ;;
    d <- read_number x0a ;;
    read_embeds (Some (n, d)) lossy.
  Definition read_text_dims (lossy : bool) : reader semb :=
    e <- read_text_dims_raw lossy ;; lift (normalize_all f32_ops pf e).
End Text.

(** [join(sep)]. *)
Fixpoint join (sep : str) (l : list str) : str :=
  match l with
  | [] => []
  | [s] => s
  | s :: l' => s ++ sep ++ join sep l'
  end.

Section WriteText.
  Context (P : ftext_ops) {Md V S : Type} (VO : vocab_ops V) (SO : storage_ops f32 S).
  Notation emb := (embeddings Md V S f32).

  (** The vector that is written, lines 302-306 and word2vec.rs 150-154. *)
  Definition output_vector (unnormalize : bool) (en : list f32 * f32) : list f32 :=
    if unnormalize then into_unnormalized f32_ops en else fst en.

  (** [write_text], lines 300-314. *)
  Definition text_line_of (w : str) (v : list f32) : str :=
    w ++ [x20] ++ join [x20] (map (ft_print P) v) ++ [x0a].
  Definition write_text (unnormalize : bool) (e : emb) : writer unit :=
    items <- lift (emb_iter_with_norms f32_ops VO SO e) ;;
    for_each items (fun '(w, en) => write_bytes (text_line_of w (output_vector unnormalize en))).

  (** The first line of [write_text_dims] and [write_word2vec_binary]. *)
  Definition dims_line (e : emb) : str :=
    dec_print (v_words_len VO (em_vocab e)) ++ [x20] ++ dec_print (emb_dims SO e) ++ [x0a].

  (** [write_text_dims], lines 341-345. *)
  Definition write_text_dims (unnormalize : bool) (e : emb) : writer unit :=
    write_bytes (dims_line e) ;;; write_text unnormalize e.

  (** [write_word2vec_binary], /repo/src/compat/word2vec.rs 140-166. *)
  Definition write_word2vec (unnormalize : bool) (e : emb) : writer unit :=
    write_bytes (dims_line e) ;;;
    items <- lift (emb_iter_with_norms f32_ops VO SO e) ;;
    for_each items (fun '(w, en) =>
      write_bytes (w ++ [x20]) ;;;
      write_f32s (output_vector unnormalize en) ;;;
      write_bytes [x0a]).
End WriteText.

(** ** word2vec binary (/repo/src/compat/word2vec.rs) *)
Section Word2Vec.
  Context (pf : profile) {Md : Type}.
  Notation semb := (embeddings Md simple_vocab (array2 f32) f32).

  (** One entry, lines 97-108. *)
  Definition read_w2v_entry (dims : N) (lossy : bool) : reader (str * list f32) :=
    w <- read_string x20 lossy ;;
    v <- read_f32s dims ;;
    ret (str_trim w, v).

  (** [read_word2vec_binary_raw], lines 89-116. *)
  Definition read_word2vec_raw (lossy : bool) : reader semb :=
    n <- read_number x20 ;;
    d <- read_number x0a ;;
    alloc_zeros [n; d] 4 ;;;
    reserve n 24 ;;;
    es <- repeat_m n (read_w2v_entry d lossy) ;;
    v <- lift (simple_new (map fst es)) ;;
    lift (emb_new_with_maybe_norms simple_ops (nd_ops f32) pf None v (mkA2 d (map snd es)) None).

  (** [read_word2vec_binary(_lossy)], lines 60-75. *)
  Definition read_word2vec (lossy : bool) : reader semb :=
    e <- read_word2vec_raw lossy ;; lift (normalize_all f32_ops pf e).
End Word2Vec.

(** ** floret (/repo/src/compat/floret/io.rs) *)
Section Floret.
  Context (P : ftext_ops) (pf : profile) {Md : Type}.
  Notation femb := (embeddings Md (subword_vocab floret_indexer) (array2 f32) f32).

  (** [BufRead::lines]: a line without ["\n"] or ["\r\n"]. *)
  Definition strip_crlf (buf : list byte) : list byte :=
    match rev buf with
    | x0a :: x0d :: r => rev r
    | x0a :: r => rev r
    | _ => buf
    end.

  (** One line, lines 63-82: the first field is skipped. *)
  Definition floret_line (dims : N) (buf : list byte) : res (list f32) :=
    if utf8_valid buf then
      let* xs := parse_floats P (tl (fields buf)) in
      if lenN xs =? dims then Ok xs else Err EFormat
    else Err ERead.

  Fixpoint floret_lines (fuel : nat) (dims : N) : reader (list f32) :=
    match fuel with
    | O => fail EFuel
    | Datatypes.S fuel' =>
        buf <- read_until x0a ;;
        match buf with
        | [] => ret []
        | _ =>
            xs <- lift (floret_line dims (strip_crlf buf)) ;;
            r <- floret_lines fuel' dims ;;
            ret (xs ++ r)
        end
    end.
  Definition read_floret_lines (dims : N) : reader (list f32) := fun s =>
    floret_lines (Datatypes.S (length (s_rest s))) dims s.

  (** [read_floret_text], lines 27-102; [as u32] truncates. *)
  Definition read_floret_text : reader femb :=
    n_buckets <- read_number x20 ;;
    dims <- read_number x20 ;;
    min_n <- read_number x20 ;;
    let min_n := min_n mod two32 in
    max_n <- read_number x20 ;;
    let max_n := max_n mod two32 in
    n_hashes <- read_number x20 ;;
    let n_hashes := n_hashes mod two32 in
    seed <- read_number x20 ;;
    bow <- read_string x20 false ;;
    eow <- read_string x0a false ;;
    if n_buckets =? 0 then fail EFormat else
    if dims =? 0 then fail EFormat else
    if max_n <? min_n then fail EFormat else
    if negb ((1 <=? n_hashes) && (n_hashes <=? 4)) then fail EFormat else
    c <- lift (mul64 pf n_buckets dims) ;;
    reserve c 4 ;;;
    data <- read_floret_lines dims ;;
    a <- lift (from_shape_vec n_buckets dims data) ;;
    ix <- lift (floret_indexer_new n_buckets n_hashes (seed mod two32)) ;;
    v <- lift (sub_new_with_boundaries floret_ops pf [] min_n max_n ix bow eow) ;;
    lift (emb_new_with_maybe_norms (sub_ops floret_ops) (nd_ops f32) pf None v a None).

  (** The header line, lines 115-126. *)
  Definition floret_header (e : femb) (buckets : N) : str :=
    let v := em_vocab e in
    dec_print buckets ++ [x20] ++ dec_print (emb_dims (nd_ops f32) e) ++ [x20]
    ++ dec_print (sv_min v) ++ [x20] ++ dec_print (sv_max v) ++ [x20]
    ++ dec_print (fl_hashes (sv_ix v)) ++ [x20] ++ dec_print (fl_seed (sv_ix v)) ++ [x20]
    ++ sv_bow v ++ [x20] ++ sv_eow v ++ [x0a].

  (** [write_floret_text], lines 113-143.  Slicing from [words_len] panics
      beyond the end. *)
  Definition write_floret_text (e : femb) : writer unit :=
    n <- lift (sub_vocab_len floret_ops pf (em_vocab e)) ;;
    let wl := sub_words_len (em_vocab e) in
    write_bytes (floret_header e (n - wl)) ;;;
    lift (rassert (wl <=? a2_nrows (em_storage e)) PIndexOutOfBounds) ;;;
    for_each (enumerate (dropN wl (a2_rows (em_storage e)))) (fun '(i, v) =>
      write_bytes (dec_print i ++ [x20] ++ join [x20] (map (ft_print P) v) ++ [x0a])).
End Floret.
