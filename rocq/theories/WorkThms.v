(** * Readers make few calls (stated in P_Work.v). *)
From Verif Require Import Base BaseFacts Utf8 Stream StreamFacts ReadFacts F32 ChunkIO Subword Vocab VocabFacts Storage Embeddings TextIO FastText FileSpec DeviceThms MemoryGreedy Work.
From Coq Require Import Lia ZifyBool ZifyNat ZifyN.
Local Open Scope N_scope.

Definition left (s : stream) : Z := Z.of_N (lenN (s_rest s)).
(** Calls and bytes: at most [e] more calls than bytes consumed if the reader
    succeeds, at most [f] more if it does not. *)
Definition within_bytes {A} (m : reader A) (c : stream -> N) (e f : Z) : Prop :=
  forall s, (Z.of_N (c s) + left (snd (m s)) <= left s + match fst (m s) with Ok _ => e | _ => f end)%Z.
Definition work {A} (m : reader A) (e f : Z) : Type := { c : stream -> N | counts m c /\ within_bytes m c e f }.

Lemma left_pos s : (0 <= left s)%Z. Proof. unfold left. lia. Qed.

Section Rules.
  Local Open Scope Z_scope.
  Lemma w_lift {A} (r : res A) e f : 0 <= e -> 0 <= f -> work (lift r) e f.
  Proof. intros E F. exists (fun _ => 0%N). split; [constructor|]. intros s. unfold lift. cbn [fst snd]. destruct r; lia. Qed.
  Lemma w_ret {A} (a : A) e f : 0 <= e -> work (ret a) e f.
  Proof. intros E. exists (fun _ => 0%N). split; [exact (ct_lift A (Ok a))|]. intros s. unfold ret. cbn [fst snd]. lia. Qed.
  Lemma w_fail {A} er e f : 0 <= f -> work (fail (A := A) er) e f.
  Proof. intros F. exists (fun _ => 0%N). split; [exact (ct_lift A (Err er))|]. intros s. unfold fail. cbn [fst snd]. lia. Qed.
  Lemma w_reserve n size : work (reserve n size) 0 0.
  Proof. exists (fun _ => 0%N). split; [constructor|]. intros s. unfold reserve. destruct (_ <=? _)%N; cbn [fst snd]; lia. Qed.
  Lemma w_alloc dims size : work (alloc_zeros dims size) 0 0.
  Proof. exists (fun _ => 0%N). split; [constructor|]. intros s. unfold alloc_zeros. destruct (_ && _)%bool; cbn [fst snd]; lia. Qed.
  Lemma w_exact n : work (read_exact n) (1 - Z.of_N n) 1.
  Proof.
    exists (fun _ => 1%N). split; [constructor|]. intros s. unfold read_exact, left. destruct (N.leb_spec n (lenN (s_rest s))) as [L|L]; cbn [fst snd s_rest].
    - rewrite lenN_dropN. lia.
    - rewrite lenN_nil. lia.
  Qed.
  Lemma w_exact1 n : work (read_exact n) 1 1.
  Proof. destruct (w_exact n) as (c & C & B). exists c. split; [exact C|]. intros s. specialize (B s). destruct (fst (read_exact n s)); lia. Qed.
  Lemma w_u8 : work read_u8 0 1.
  Proof.
    destruct (w_exact 1) as (c & C & B). eexists. split; [eapply ct_bind; [exact C|intros a; exact (ct_lift _ (Ok (le_value a)))]|].
    intros s. specialize (B s). unfold read_u8, bind, ret in *. destruct (read_exact 1 s) as [[a|er|w] s']; cbn [fst snd] in *; lia.
  Qed.
  Lemma w_u32 : work read_u32 (-3) 1.
  Proof.
    destruct (w_exact 4) as (c & C & B). eexists. split; [eapply ct_bind; [exact C|intros a; exact (ct_lift _ (Ok (le_value a)))]|].
    intros s. specialize (B s). unfold read_u32, bind, ret in *. destruct (read_exact 4 s) as [[a|er|w] s']; cbn [fst snd] in *; lia.
  Qed.
  Lemma w_u64 : work read_u64 (-7) 1.
  Proof.
    destruct (w_exact 8) as (c & C & B). eexists. split; [eapply ct_bind; [exact C|intros a; exact (ct_lift _ (Ok (le_value a)))]|].
    intros s. specialize (B s). unfold read_u64, bind, ret in *. destruct (read_exact 8 s) as [[a|er|w] s']; cbn [fst snd] in *; lia.
  Qed.
  Lemma read_until_left d s : left (snd (read_until d s)) <= left s /\ (forall x, fst (read_until d s) = Ok x -> x <> [] -> left (snd (read_until d s)) < left s).
  Proof.
    pose proof (denote_shrinks (IoDevice.Until d) s) as Sh. cbn [IoDevice.denote] in Sh. unfold left, lenN in *. split; [lia|].
    intros x E NE. destruct (read_until d s) as [r s'] eqn:Q. cbn [fst snd] in *. subst r. pose proof (read_until_less _ _ _ _ Q NE). lia.
  Qed.
  Lemma w_until d : work (read_until d) 1 1.
  Proof. exists (fun _ => 1%N). split; [constructor|]. intros s. pose proof (read_until_left d s) as [L _]. destruct (fst (read_until d s)); lia. Qed.
  Lemma w_position : work position 1 1.
  Proof. exists (fun _ => 1%N). split; [constructor|]. intros s. unfold position. cbn [fst snd]. lia. Qed.
  Lemma w_seek n : work (seek_forward n) 1 1.
  Proof.
    exists (fun _ => 1%N). split; [constructor|]. intros s. pose proof (denote_shrinks (IoDevice.Forward n) s) as Sh. cbn [IoDevice.denote] in Sh. unfold left, lenN, seek_forward in *. cbn [fst snd] in *. lia.
  Qed.
  Lemma w_map n : work (mmap_region n) 1 1.
  Proof. exists (fun _ => 1%N). split; [constructor|]. intros s. unfold mmap_region. destruct (_ <=? _)%N; cbn [fst snd]; lia. Qed.

  Lemma w_bind {A B} e1 f1 e f (m : reader A) (k : A -> reader B) :
    work m e1 f1 -> f1 <= f -> (forall a, work (k a) (e - e1) (f - e1)) -> work (bind m k) e f.
  Proof.
    intros (c & C & Bd) F K. eexists. split; [eapply ct_bind; [exact C|intros a; exact (proj1 (proj2_sig (K a)))]|].
    intros s. specialize (Bd s). unfold bind in *. destruct (m s) as [[a|er|w] s'] eqn:E; cbn [fst snd] in *; [|lia..].
    pose proof (proj2 (proj2_sig (K a)) s') as Q. cbn beta in *. destruct (fst (k a s')); lia.
  Qed.
  Lemma w_weak {A} e f e' f' (m : reader A) : work m e f -> e <= e' -> f <= f' -> work m e' f'.
  Proof. intros (c & C & B) E F. exists c. split; [exact C|]. intros s. specialize (B s). destruct (fst (m s)); lia. Qed.
  Lemma w_ok_opt {A} e f g (m : reader A) : work m e f -> e <= g -> f <= g -> work (ok_opt m) g f.
  Proof.
    intros (c & C & B) E F. exists c. split; [apply ct_ok_opt, C|]. intros s. specialize (B s). unfold ok_opt. destruct (m s) as [[a|er|w] s']; cbn [fst snd] in *; lia.
  Qed.
  (** The bytes are read again: all that matters is that the calls are few. *)
  Lemma w_peek_id : work (peek peek_chunk_id) 3 2.
  Proof.
    eexists. split; [apply ct_peek; eapply ct_bind; [eapply ct_bind; [apply ct_exact|intros a; exact (ct_lift _ (Ok (le_value a)))]|intros n; apply (ct_lift _ (chunk_of_num n))]|].
    intros s. unfold peek, peek_chunk_id, read_u32, bind, ret, lift, left, read_exact. destruct (N.leb_spec 4 (lenN (s_rest s))) as [L|L].
    - destruct (chunk_of_num _); cbn [fst snd s_rest]; rewrite ?lenN_dropN; lia.
    - cbn [fst snd s_rest]. unfold lenN; cbn [length]; lia.
  Qed.

  Lemma repeat_calls {A} (m : reader A) cm k : counts m cm ->
    { c | counts (repeat_m k m) c /\
          (forall e f, 0 <= e -> 0 <= f -> within_bytes m cm e f -> within_bytes (repeat_m k m) c (e * Z.of_N k) (e * Z.of_N k + f)) /\
          (forall s a, m s = (Ok a, s) -> c s = (k * cm s)%N /\ repeat_m k m s = (Ok (repeat a (N.to_nat k)), s)) }.
  Proof.
    intros C. unfold repeat_m. destruct k as [|q].
    { exists (fun _ => 0%N). split; [exact (ct_lift _ (Ok []))|]. split; [intros e f E F W s; cbn [fst snd ret]; unfold ret; cbn [fst snd]; lia|]. intros s a E. split; [reflexivity|]. reflexivity. }
    induction q as [q (c & C1 & W1 & X1)|q (c & C1 & W1 & X1)|]; cbn [repeat_pos].
    - eexists. split; [eapply ct_bind; [exact C|]; intros a; eapply ct_bind; [exact C1|]; intros l1; eapply ct_bind; [exact C1|]; intros l2; exact (ct_lift _ (Ok (a :: l1 ++ l2)))|]. split.
      + intros e f E F W s. specialize (W1 e f E F W). pose proof (W s) as H. unfold bind, ret in *. destruct (m s) as [[a|er|w] s1]; cbn [fst snd] in *; [|nia..].
        pose proof (W1 s1) as H1. destruct (repeat_pos q m s1) as [[l1|er|w] s2]; cbn [fst snd] in *; [|nia..].
        pose proof (W1 s2) as H2. destruct (repeat_pos q m s2) as [[l2|er|w] s3]; cbn [fst snd] in *; nia.
      + intros s a E. destruct (X1 s a E) as [N1 R1]. unfold bind, ret. rewrite E, R1, R1, N1. split; [lia|]. rewrite <- repeat_app. replace (N.to_nat (N.pos q~1)) with (S (N.to_nat (N.pos q) + N.to_nat (N.pos q))) by lia. reflexivity.
    - eexists. split; [eapply ct_bind; [exact C1|]; intros l1; eapply ct_bind; [exact C1|]; intros l2; exact (ct_lift _ (Ok (l1 ++ l2)))|]. split.
      + intros e f E F W s. specialize (W1 e f E F W). unfold bind, ret in *.
        pose proof (W1 s) as H1. destruct (repeat_pos q m s) as [[l1|er|w] s2]; cbn [fst snd] in *; [|nia..].
        pose proof (W1 s2) as H2. destruct (repeat_pos q m s2) as [[l2|er|w] s3]; cbn [fst snd] in *; nia.
      + intros s a E. destruct (X1 s a E) as [N1 R1]. unfold bind, ret. rewrite R1, R1, N1. split; [lia|]. rewrite <- repeat_app. replace (N.to_nat (N.pos q~0)) with (N.to_nat (N.pos q) + N.to_nat (N.pos q))%nat by lia. reflexivity.
    - eexists. split; [eapply ct_bind; [exact C|]; intros a; exact (ct_lift _ (Ok [a]))|]. split.
      + intros e f E F W s. pose proof (W s) as H. unfold bind, ret in *. destruct (m s) as [[a|er|w] s1]; cbn [fst snd] in *; lia.
      + intros s a E. unfold bind, ret. rewrite E. split; [lia|reflexivity].
  Qed.
  (** Turns of a loop that need at most as many calls as bytes. *)
  Lemma w_repeat {A} f k (m : reader A) : work m 0 f -> 0 <= f -> work (repeat_m k m) 0 f.
  Proof.
    intros (cm & C & W) F. destruct (repeat_calls m cm k C) as (c & C' & W' & _). exists c. split; [exact C'|]. exact (W' 0 f (Z.le_refl 0) F W).
  Qed.

  (** A line takes a byte unless it is the end. *)
  Lemma w_until_bind {B} e f d (k : list byte -> reader B) : 1 <= f -> work (k []) (e - 1) (f - 1) -> (forall x l, work (k (x :: l)) e f) -> work (bind (read_until d) k) e f.
  Proof.
    intros F K0 K. exists (fun s => (1 + match read_until d s with (Ok a, s') => match a with [] => proj1_sig K0 | x :: l => proj1_sig (K x l) end s' | _ => 0 end)%N). split.
    - apply (ct_bind _ _ (read_until d) k (fun _ => 1%N) (fun a => match a with [] => proj1_sig K0 | x :: l => proj1_sig (K x l) end)); [apply ct_until|].
      intros [|x l]; [exact (proj1 (proj2_sig K0))|exact (proj1 (proj2_sig (K x l)))].
    - intros s. pose proof (read_until_left d s) as [L NE]. unfold bind. destruct (read_until d s) as [[a|er|w] s']; cbn [fst snd] in *; [|lia..].
      destruct a as [|x l].
      + pose proof (proj2 (proj2_sig K0) s') as Q. cbn beta in Q. destruct (fst (k [] s')); lia.
      + pose proof (proj2 (proj2_sig (K x l)) s') as Q. cbn beta in Q. specialize (NE _ eq_refl ltac:(discriminate)). destruct (fst (k (x :: l) s')); lia.
  Qed.
  Lemma w_fuel {A} e f g (m : nat -> reader A) : (forall n, work (m n) e f) -> work (fun s => m (g s) s) e f.
  Proof.
    intros W. eexists. split; [apply ct_fuel; intros n; exact (proj1 (proj2_sig (W n)))|]. intros s. exact (proj2 (proj2_sig (W (g s))) s).
  Qed.
End Rules.

Ltac wk1 := first
  [ eapply w_bind; [first [eassumption | apply w_u32 | apply w_u64 | apply w_u8 | apply w_exact1 | apply w_until | apply w_seek | apply w_position | apply w_reserve | apply w_map | apply w_alloc
                          | apply (w_lift _ 0 0); lia] | lia | intros ?]
  | apply w_ret; lia | apply w_fail; lia | apply w_lift; lia
  | match goal with |- work (match ?x with _ => _ end) _ _ => destruct x end ].
Ltac wk := repeat (cbv beta zeta; wk1).

(** ** Pieces *)
Lemma w_chunk_type id : work (ensure_chunk_type id) (-3) 1. Proof. unfold ensure_chunk_type. wk. Qed.
Lemma w_data_type t : work (ensure_data_type t) (-3) 1. Proof. unfold ensure_data_type. wk. Qed.
Lemma w_header : work read_header (-5) 2.
Proof.
  unfold read_header. wk. eapply w_weak; [apply (w_repeat 1); [|lia]|lia|lia]. wk.
Qed.
Lemma w_f32s n : work (read_f32s n) 1 1. Proof. unfold read_f32s. wk. Qed.
Lemma w_f32s_some n : n <> 0 -> work (read_f32s n) (-3) 1.
Proof. intros NZ. unfold read_f32s. eapply w_bind; [apply w_exact|lia|]. intros a. apply w_ret. lia. Qed.
Lemma w_string_item : work read_string_item (-2) 1. Proof. unfold read_string_item. wk. Qed.
Lemma w_items n : work (read_items n) 0 1.
Proof. unfold read_items. wk. apply (w_weak 0 1); [|lia..]. apply w_repeat; [|lia]. exact (w_weak _ _ 0 1 _ w_string_item ltac:(lia) ltac:(lia)). Qed.
Lemma w_ngrams n : work (read_ngrams_with_indices n) 0 1.
Proof. unfold read_ngrams_with_indices. wk. apply (w_weak 0 1); [|lia..]. apply w_repeat; [|lia]. unfold read_ngram_item. wk. Qed.
Ltac wkp := repeat (cbv beta zeta; first [wk1 | eapply w_bind; [first [apply w_chunk_type | apply w_data_type | apply w_header | apply w_f32s | apply w_string_item | apply w_items | apply w_ngrams | apply w_peek_id] | lia | intros ?]
  | eapply w_weak; [first [apply w_f32s]|lia|lia]]).
Lemma w_metadata T : work (read_metadata_chunk T) (-3) 1. Proof. unfold read_metadata_chunk. wkp. Qed.
Lemma w_read_metadata T : work (read_metadata T) (-5) 2.
Proof. unfold read_metadata. wkp. eapply w_bind; [apply w_metadata|lia|]. intros t. wkp. Qed.
Lemma w_norms : work read_norms (-3) 1. Proof. unfold read_norms. wkp. Qed.

(** ** Vocabularies and storages *)
Lemma w_simple : work read_simple (-3) 1. Proof. unfold read_simple. wkp. Qed.
Lemma w_bucketed {I} (B : bucket_ops I) pf id : work (read_bucketed B pf id) (-3) 1. Proof. unfold read_bucketed. wkp. Qed.
Lemma w_explicit pf : work (read_explicit pf) (-3) 1. Proof. unfold read_explicit. wkp. Qed.
Lemma w_floret pf : work (read_floret pf) (-3) 1. Proof. unfold read_floret. wkp. Qed.
Lemma w_vocab pf : work (read_vocab_wrap pf) 0 4.
Proof.
  unfold read_vocab_wrap. wkp;
    (eapply w_bind; [first [apply w_simple|apply w_bucketed|apply w_explicit|apply w_floret]|lia|intros ?; wkp]).
Qed.
Lemma w_ndarray : work read_ndarray (-3) 1. Proof. unfold read_ndarray. wkp. Qed.
Lemma w_mmap_ndarray pf : work (mmap_ndarray pf) (-3) 1. Proof. unfold mmap_ndarray. wkp. Qed.
Lemma w_pq : work read_product_quantizer (-3) 1.
Proof.
  unfold read_product_quantizer. wkp. eapply (w_bind 1 1); [|lia|intros ?; wkp].
  wkp.
Qed.
Lemma w_qnorms has n : work (read_quantized_norms has n) 1 1. Proof. unfold read_quantized_norms. wkp. Qed.
Lemma w_quantized : work read_quantized (-3) 1.
Proof. unfold read_quantized. wkp. eapply w_bind; [apply w_pq|lia|]. intros [[n q] has]. eapply w_bind; [apply w_qnorms|lia|]. intros ns. wkp. Qed.
Lemma w_mmap_quantized pf : work (mmap_quantized_chunk pf) (-3) 1.
Proof. unfold mmap_quantized_chunk. wkp. eapply w_bind; [apply w_pq|lia|]. intros [[n q] has]. eapply w_bind; [apply w_qnorms|lia|]. intros ns. wkp. Qed.
Lemma w_storage : work read_storage_wrap 0 4.
Proof. unfold read_storage_wrap. wkp; (eapply w_bind; [first [apply w_ndarray|apply w_quantized]|lia|intros ?; wkp]). Qed.
Lemma w_storage_view : work read_storage_view_wrap 0 4.
Proof. unfold read_storage_view_wrap. wkp; (eapply w_bind; [first [apply w_ndarray]|lia|intros ?; wkp]). Qed.
Lemma w_mmap_storage pf : work (mmap_storage_wrap pf) 0 4.
Proof. unfold mmap_storage_wrap. wkp; (eapply w_bind; [first [apply w_mmap_ndarray|apply w_mmap_quantized]|lia|intros ?; wkp]). Qed.
Lemma w_mmap_storage_view pf : work (mmap_storage_view_wrap pf) 0 4.
Proof. unfold mmap_storage_view_wrap. wkp; (eapply w_bind; [first [apply w_mmap_ndarray]|lia|intros ?; wkp]). Qed.
Lemma w_meta_opt T (b : bool) : work (if b then t <- read_metadata_chunk T ;; ret (Some t) else ret None) 0 1.
Proof. destruct b; [|apply w_ret; lia]. eapply w_bind; [apply w_metadata|lia|]. intros t. apply w_ret. lia. Qed.
Lemma w_embeddings T {V S} (rv : reader V) (rs : reader S) : work rv 0 4 -> work rs 0 4 -> work (read_embeddings T rv rs) 0 2.
Proof.
  intros WV WS. unfold read_embeddings. wkp. eapply w_bind; [apply w_meta_opt|lia|]. intros md. wkp.
  eapply w_bind; [apply (w_ok_opt _ _ 1 _ w_norms); lia|lia|]. intros ns. wkp.
Qed.
Lemma w_mmap_embeddings T {V S} (rv : reader V) (rs : reader S) : work rv 0 4 -> work rs 0 4 -> work (mmap_embeddings T rv rs) 0 2.
Proof.
  intros WV WS. unfold mmap_embeddings. wkp. eapply w_bind; [apply w_meta_opt|lia|]. intros md. wkp.
  eapply w_bind; [apply (w_ok_opt _ _ 1 _ w_norms); lia|lia|]. intros ns. wkp.
Qed.

(** ** Other formats *)
Lemma w_string d lossy : work (read_string d lossy) 1 1. Proof. unfold read_string. wk. Qed.
(** No number is empty. *)
Lemma string_calls d lossy : { c | counts (read_string d lossy) c /\ forall s, c s = 1 }.
Proof.
  exists (fun s => 1 + match read_until d s with (Ok a, s') => 0 | _ => 0 end). split; [|intros s; destruct (fst (read_until d s)); destruct (read_until d s) as [[]]; reflexivity].
  apply (ct_bind _ _ (read_until d) _ (fun _ => 1) (fun _ _ => 0)); [apply ct_until|]. intros a. cbv zeta. destruct lossy; [exact (ct_lift _ (Ok (from_utf8_lossy (removelast a))))|].
  destruct (utf8_valid (removelast a)); [exact (ct_lift _ (Ok (removelast a)))|exact (ct_lift _ (Err EFormat))].
Qed.
Lemma number_calls d : { c | counts (read_number d) c /\ forall s, c s = 1 }.
Proof.
  destruct (string_calls d false) as (c & C & K).
  exists (fun s => c s + match read_string d false s with (Ok a, s') => 0 | _ => 0 end). split; [|intros s; rewrite K; destruct (read_string d false s) as [[]]; reflexivity].
  apply (ct_bind _ _ (read_string d false) _ c (fun _ _ => 0)); [exact C|]. intros a. destruct (dec_parse a) as [n|]; [exact (ct_lift _ (Ok n))|exact (ct_lift _ (Err EFormat))].
Qed.
Lemma number_within d : within_bytes (read_number d) (fun _ => 1) 0 1.
Proof.
  intros s. pose proof (read_until_left d s) as [L NE]. unfold read_number, read_string, bind in *.
  destruct (read_until d s) as [[a|er|w] s'] eqn:E; cbn [fst snd] in *; [|lia..].
  assert (a = [] \/ a <> []) as [->|NA] by (destruct a; auto; right; discriminate).
  - unfold ret, fail. cbn [removelast]. destruct (utf8_valid []) eqn:U; [|discriminate]. cbn [dec_parse fst snd]. lia.
  - specialize (NE _ eq_refl NA). unfold ret, fail. destruct (utf8_valid (removelast a)); cbn [fst snd]; [|lia]. destruct (dec_parse (removelast a)); cbn [fst snd]; lia.
Qed.
Lemma w_number d : work (read_number d) 0 1.
Proof. destruct (number_calls d) as (c & C & K). exists c. split; [exact C|]. intros s. rewrite K. exact (number_within d s). Qed.
Lemma w_text_lines P lossy : forall fuel, work (text_lines P fuel lossy) 1 1.
Proof.
  induction fuel as [|fuel IH]; cbn [text_lines]; [apply w_fail; lia|]. apply w_until_bind; [lia|apply w_ret; lia|]. intros x l. wk.
Qed.
Lemma w_lines P lossy : work (read_lines P lossy) 1 1. Proof. unfold read_lines. apply (w_fuel 1 1 _ (fun n => text_lines P n lossy)). apply w_text_lines. Qed.
Lemma w_floret_fuel P d : forall fuel, work (floret_lines P fuel d) 1 1.
Proof.
  induction fuel as [|fuel IH]; cbn [floret_lines]; [apply w_fail; lia|]. apply w_until_bind; [lia|apply w_ret; lia|]. intros x l. wk.
Qed.
Lemma w_floret_lines P d : work (read_floret_lines P d) 1 1. Proof. unfold read_floret_lines. apply (w_fuel 1 1 _ (fun n => floret_lines P n d)). apply w_floret_fuel. Qed.
Ltac wkf := repeat (cbv beta zeta; first [wk1 | eapply w_bind; [first [apply w_number | apply w_string | apply w_lines | apply w_floret_lines] | lia | intros ?]]).
Lemma w_embeds P pf {Md} shape lossy : work (read_embeds (Md := Md) P pf shape lossy) 1 1.
Proof. unfold read_embeds. eapply (w_bind 0 0); [|lia|intros ?; wkf]. destruct shape as [[n d]|]; wkf. apply w_reserve. Qed.
Lemma w_text_raw P pf {Md} lossy : work (read_text_raw (Md := Md) P pf lossy) 1 1. Proof. apply w_embeds. Qed.
Lemma w_text P pf {Md} lossy : work (read_text (Md := Md) P pf lossy) 1 1.
Proof. unfold read_text. eapply w_bind; [apply w_text_raw|lia|]. intros e. wkf. Qed.
Lemma w_text_dims_raw P pf {Md} lossy : work (read_text_dims_raw (Md := Md) P pf lossy) 1 1.
Proof. unfold read_text_dims_raw. wkf. apply w_embeds. Qed.
Lemma w_text_dims P pf {Md} lossy : work (read_text_dims (Md := Md) P pf lossy) 1 1.
Proof. unfold read_text_dims. eapply w_bind; [apply w_text_dims_raw|lia|]. intros e. wkf. Qed.
Lemma w_floret_text P pf {Md} : work (read_floret_text (Md := Md) P pf) 3 3. Proof. unfold read_floret_text. wkf. Qed.
Lemma w_loss : work read_loss (-3) 1. Proof. unfold read_loss. wk. Qed.
Lemma w_model : work read_model (-3) 1. Proof. unfold read_model. wk. Qed.
Lemma w_config : work read_config (-3) 1.
Proof. unfold read_config. repeat (cbv beta zeta; first [wk1 | eapply w_bind; [first [apply w_loss|apply w_model]|lia|intros ?]]). Qed.
Lemma w_ft_entry lossy : work (read_ft_entry lossy) 0 2. Proof. unfold read_ft_entry. wkf. Qed.
Lemma w_ft_vocab pf c lossy : work (read_ft_vocab pf c lossy) (-3) 1.
Proof. unfold read_ft_vocab. wk. eapply (w_bind 0 2); [apply w_repeat; [apply w_ft_entry|lia]|lia|]. intros ws. wk. Qed.
Lemma w_ft_matrix : work read_ft_matrix (-3) 1. Proof. unfold read_ft_matrix. wkp. Qed.
Lemma w_fasttext pf T ct lossy : work (read_fasttext pf T ct lossy) 0 1.
Proof. unfold read_fasttext. repeat (cbv beta zeta; first [wk1 | eapply w_bind; [first [apply w_config|apply w_ft_vocab|apply w_ft_matrix]|lia|intros ?]]). Qed.

(** ** word2vec *)
Lemma entry_calls d lossy : { c | counts (read_w2v_entry d lossy) c /\ within_bytes (read_w2v_entry d lossy) c 2 2 /\ (d <> 0 -> within_bytes (read_w2v_entry d lossy) c 0 2) /\
  (d = 0 -> forall p, c (mkStream [] p) = 2 /\ read_w2v_entry d lossy (mkStream [] p) = (Ok ([], []), mkStream [] p)) }.
Proof.
  destruct (string_calls x20 lossy) as (c & C & K).
  eexists. split; [eapply ct_bind; [exact C|]; intros w; eapply ct_bind; [unfold read_f32s; eapply ct_bind; [apply ct_exact|intros a; exact (ct_lift _ (Ok (f32s_of_bytes a)))]|intros v; exact (ct_lift _ (Ok (str_trim w, v)))]|].
  assert (forall s, left (snd (read_string x20 lossy s)) <= left s)%Z as LS.
  { intros s. pose proof (read_until_left x20 s) as [L _]. unfold read_string, bind, ret, fail. destruct (read_until x20 s) as [[a|er|w] s']; cbn [fst snd] in *; [|exact L..]. destruct lossy; [exact L|]. destruct (utf8_valid _); exact L. }
  assert (forall s, left (snd (read_exact (4 * d) s)) + match fst (read_exact (4 * d) s) with Ok _ => Z.of_N (4 * d) | _ => 0 end <= left s)%Z as LE.
  { intros s. destruct (w_exact (4 * d)) as (x & _ & W). unfold read_exact, left. destruct (N.leb_spec (4 * d) (lenN (s_rest s))); cbn [fst snd s_rest]; [rewrite lenN_dropN; lia|]. unfold lenN; cbn [length]. lia. }
  split; [|split].
  - intros s. specialize (LS s). unfold read_w2v_entry, read_f32s, bind, ret. cbv beta. rewrite K. destruct (read_string x20 lossy s) as [[w|er|w] s1]; cbn [fst snd] in *; [|lia..].
    specialize (LE s1). destruct (read_exact (4 * d) s1) as [[b|er|w'] s2]; cbn [fst snd] in *; lia.
  - intros NZ s. specialize (LS s). unfold read_w2v_entry, read_f32s, bind, ret. cbv beta. rewrite K. destruct (read_string x20 lossy s) as [[w|er|w] s1]; cbn [fst snd] in *; [|lia..].
    specialize (LE s1). destruct (read_exact (4 * d) s1) as [[b|er|w'] s2]; cbn [fst snd] in *; lia.
  - intros -> p. rewrite K. assert (read_string x20 lossy (mkStream [] p) = (Ok [], mkStream [] p)) as ->.
    { unfold read_string, read_until, bind, ret. cbn [s_rest s_pos split_until]. change (lenN []) with 0. rewrite N.add_0_r. destruct lossy; reflexivity. }
    unfold read_w2v_entry, read_f32s, bind. assert (read_string x20 lossy (mkStream [] p) = (Ok [], mkStream [] p)) as ->.
    { unfold read_string, read_until, bind, ret. cbn [s_rest s_pos split_until]. change (lenN []) with 0. rewrite N.add_0_r. destruct lossy; reflexivity. }
    assert (read_exact (4 * 0) (mkStream [] p) = (Ok [], mkStream [] p)) as ->.
    { unfold read_exact. cbn [s_rest s_pos]. change (4 * 0) with 0. change (0 <=? lenN []) with true. cbv iota. rewrite N.add_0_r. reflexivity. }
    split; reflexivity.
Qed.

(** Zero components: a number of words and nothing else. *)
Definition no_dims (n : N) : list byte := dec_print n ++ [x20; x30; x0a].
Lemma no_dims_size n : n <= isize_max -> lenN (no_dims n) <= 22.
Proof. intros H. apply dec_print_size in H. unfold no_dims. rewrite lenN_app. change (lenN [x20; x30; x0a]) with 3. lia. Qed.
Lemma no_dims_number n p : n < two64 -> exists p1 p2, read_number x20 (mkStream (no_dims n) p) = (Ok n, mkStream [x30; x0a] p1) /\ read_number x0a (mkStream [x30; x0a] p1) = (Ok 0, mkStream [] p2).
Proof.
  intros L. exists (p + lenN (dec_print n) + 1). eexists. split; [apply number_read; [exact L|vm_compute; intuition discriminate]|]. exact (number_read x0a 0 [] _ eq_refl ltac:(vm_compute; intuition discriminate)).
Qed.

Lemma raw_calls pf {Md} lossy : { c | counts (read_word2vec_raw (Md := Md) pf lossy) c /\
  (forall s, c s <= lenN (s_rest s) + 2 \/
    exists n s1 s2, read_number x20 s = (Ok n, s1) /\ read_number x0a s1 = (Ok 0, s2) /\ c s <= lenN (s_rest s) + 2 + 2 * n) /\
  (forall n p, n * 24 <= isize_max -> c (mkStream (no_dims n) p) = 2 + 2 * n) }.
Proof.
  destruct (number_calls x20) as (c1 & C1 & K1). destruct (number_calls x0a) as (c2 & C2 & K2).
  set (tail := fun n d => alloc_zeros [n; d] 4 ;;; reserve n 24 ;;; es <- repeat_m n (read_w2v_entry d lossy) ;; v <- lift (simple_new (map fst es)) ;;
    lift (emb_new_with_maybe_norms (Md := Md) simple_ops (nd_ops f32) pf None v (mkA2 d (map snd es)) None)).
  assert (forall n d, { c | counts (tail n d) c /\ (forall s, c s <= lenN (s_rest s) + (if d =? 0 then 2 * n + 2 else 2)) /\
                            (d = 0 -> n * 24 <= isize_max -> forall p, c (mkStream [] p) = 2 * n) }) as K.
  { intros n d. destruct (entry_calls d lossy) as (ce & CE & W2 & W0 & WE). destruct (repeat_calls (read_w2v_entry d lossy) ce n CE) as (cr & CR & WR & XR).
    eexists. split.
    { unfold tail. eapply ct_bind; [apply ct_alloc|]; intros u1. eapply ct_bind; [apply ct_reserve|]; intros u2. eapply ct_bind; [exact CR|]; intros es. eapply ct_bind; [apply ct_lift|]; intros v. apply ct_lift. }
    split.
    - intros s. cbv beta. unfold alloc_zeros at 1. destruct (_ && _)%bool; [|destruct (d =? 0); lia]. unfold reserve at 1. destruct (_ <=? _); [|destruct (d =? 0); lia].
      assert (Z.of_N (cr s) <= left s + Z.of_N (if (d =? 0)%N then 2 * n + 2 else 2))%Z as B.
      { destruct (N.eqb_spec d 0) as [E|E].
        - pose proof (WR 2%Z 2%Z ltac:(lia) ltac:(lia) W2 s) as H. pose proof (left_pos (snd (repeat_m n (read_w2v_entry d lossy) s))). destruct (fst (repeat_m n _ s)); lia.
        - pose proof (WR 0%Z 2%Z ltac:(lia) ltac:(lia) (W0 E) s) as H. pose proof (left_pos (snd (repeat_m n (read_w2v_entry d lossy) s))). destruct (fst (repeat_m n _ s)); lia. }
      unfold left in B. destruct (repeat_m n (read_w2v_entry d lossy) s) as [[es|er|w] s1]; [unfold lift; destruct (simple_new (map fst es))|..]; lia.
    - intros -> L p. destruct (WE eq_refl p) as [E1 E2]. destruct (XR (mkStream [] p) _ E2) as [E3 E4]. cbv beta. unfold alloc_zeros, reserve.
      assert (((fold_left (fun a d => a * nonzero d) [n; 0] 1 <=? isize_max) && (fold_left N.mul [n; 0] 1 * 4 <=? isize_max))%bool = true) as ->.
      { cbn [fold_left]. apply andb_true_iff. split; apply N.leb_le; [|unfold isize_max; lia]. change (nonzero 0) with 1. unfold nonzero, isize_max in *. destruct (N.eqb_spec n 0); lia. }
      destruct (N.leb_spec (n * 24) isize_max) as [_|Q]; [|lia]. rewrite E4, E3, E1. unfold lift. destruct (simple_new _); lia. }
  exists (fun s => c1 s + match read_number x20 s with (Ok n, s1) => c2 s1 + match read_number x0a s1 with (Ok d, s2) => proj1_sig (K n d) s2 | _ => 0 end | _ => 0 end).
  split; [|split].
  - apply (ct_bind _ _ (read_number x20) (fun n => bind (read_number x0a) (tail n)) c1 (fun n s1 => c2 s1 + match read_number x0a s1 with (Ok d, s2) => proj1_sig (K n d) s2 | _ => 0 end)); [exact C1|].
    intros n. apply (ct_bind _ _ (read_number x0a) (tail n) c2 (fun d => proj1_sig (K n d))); [exact C2|]. intros d. exact (proj1 (proj2_sig (K n d))).
  - intros s. rewrite K1. pose proof (number_within x20 s) as L1.
    destruct (read_number x20 s) as [[n|er|w] s1] eqn:E1; [|left; lia..]. rewrite K2. pose proof (number_within x0a s1) as L2.
    destruct (read_number x0a s1) as [[d|er|w] s2] eqn:E2; [|left; lia..]. destruct (K n d) as (c & C & B & X). cbn [proj1_sig]. specialize (B s2). cbn [fst snd] in *. unfold left in *.
    destruct (N.eqb_spec d 0) as [->|NZ]; [right; exists n, s1, s2; repeat split; auto; lia|left; lia].
  - intros n p L. rewrite K1. destruct (no_dims_number n p) as (p1 & p2 & E1 & E2); [unfold isize_max, two64 in *; lia|]. rewrite E1, K2, E2. destruct (K n 0) as (c & C & B & X). cbn [proj1_sig]. rewrite X by auto. lia.
Qed.

(** ** Statements *)
Definition thrifty {A} (m : reader A) (e f : Z) : Prop := exists c, counts m c /\ within_bytes m c e f.
Definition few_calls {A} (m : reader A) (k : N) : Prop := exists c, counts m c /\ forall s, c s <= lenN (s_rest s) + k.
Lemma work_thrifty {A} (m : reader A) e f : work m e f -> thrifty m e f.
Proof. intros (c & H). exists c. exact H. Qed.
Lemma work_few {A} (m : reader A) e f k : work m e f -> (e <= Z.of_N k)%Z -> (f <= Z.of_N k)%Z -> few_calls m k.
Proof.
  intros (c & C & W) E F. exists c. split; [exact C|]. intros s. specialize (W s). pose proof (left_pos (snd (m s))). unfold left in *. destruct (fst (m s)); lia.
Qed.

Lemma chunk_calls pf T : few_calls read_header 2 /\ few_calls (read_metadata T) 2 /\ few_calls read_norms 1 /\
  few_calls read_simple 1 /\ few_calls (read_bucketed ft_bucket_ops pf CFastTextSubwordVocab) 1 /\ few_calls (read_bucketed hash_bucket_ops pf CBucketSubwordVocab) 1 /\
  few_calls (read_explicit pf) 1 /\ few_calls (read_floret pf) 1 /\ few_calls (read_vocab_wrap pf) 4 /\
  few_calls read_ndarray 1 /\ few_calls read_quantized 1 /\ few_calls read_storage_wrap 4 /\ few_calls read_storage_view_wrap 4 /\
  few_calls (mmap_ndarray pf) 1 /\ few_calls (mmap_quantized_chunk pf) 1 /\ few_calls (mmap_storage_wrap pf) 4 /\ few_calls (mmap_storage_view_wrap pf) 4.
Proof.
  repeat apply conj; (eapply work_few; [first [apply w_header|apply w_read_metadata|apply w_norms|apply w_simple|apply w_bucketed|apply w_explicit|apply w_floret|apply w_vocab
    |apply w_ndarray|apply w_quantized|apply w_storage|apply w_storage_view|apply w_mmap_ndarray|apply w_mmap_quantized|apply w_mmap_storage|apply w_mmap_storage_view]|lia|lia]).
Qed.

(** The chunks of which a file is read. *)
Lemma chunk_thrift pf : thrifty read_simple 0 4 /\ thrifty (read_bucketed ft_bucket_ops pf CFastTextSubwordVocab) 0 4 /\ thrifty (read_bucketed hash_bucket_ops pf CBucketSubwordVocab) 0 4 /\
  thrifty (read_explicit pf) 0 4 /\ thrifty (read_floret pf) 0 4 /\ thrifty (read_vocab_wrap pf) 0 4 /\
  thrifty read_ndarray 0 4 /\ thrifty read_quantized 0 4 /\ thrifty read_storage_wrap 0 4 /\ thrifty read_storage_view_wrap 0 4 /\
  thrifty (mmap_ndarray pf) 0 4 /\ thrifty (mmap_quantized_chunk pf) 0 4 /\ thrifty (mmap_storage_wrap pf) 0 4 /\ thrifty (mmap_storage_view_wrap pf) 0 4.
Proof.
  repeat apply conj; (apply work_thrifty; eapply w_weak; [first [apply w_simple|apply w_bucketed|apply w_explicit|apply w_floret|apply w_vocab
    |apply w_ndarray|apply w_quantized|apply w_storage|apply w_storage_view|apply w_mmap_ndarray|apply w_mmap_quantized|apply w_mmap_storage|apply w_mmap_storage_view]|lia|lia]).
Qed.
Lemma file_calls T {V S} (rv : reader V) (rs : reader S) : thrifty rv 0 4 -> thrifty rs 0 4 ->
  few_calls (read_embeddings T rv rs) 2 /\ few_calls (mmap_embeddings T rv rs) 2.
Proof.
  intros [cv HV] [cs HS]. split; eapply work_few; [apply w_embeddings; eexists; eassumption|lia|lia|apply w_mmap_embeddings; eexists; eassumption|lia|lia].
Qed.
Lemma format_calls P pf {Md} T config_table lossy : few_calls (read_text_raw (Md := Md) P pf lossy) 1 /\ few_calls (read_text (Md := Md) P pf lossy) 1 /\
  few_calls (read_text_dims_raw (Md := Md) P pf lossy) 1 /\ few_calls (read_text_dims (Md := Md) P pf lossy) 1 /\
  few_calls (read_floret_text (Md := Md) P pf) 3 /\ few_calls (read_fasttext pf T config_table lossy) 1.
Proof.
  repeat apply conj; (eapply work_few; [first [apply w_text_raw|apply w_text|apply w_text_dims_raw|apply w_text_dims|apply w_floret_text|apply w_fasttext]|lia|lia]).
Qed.

Lemma word2vec_calls pf {Md} lossy (raw : bool) : exists c, counts (if raw then read_word2vec_raw (Md := Md) pf lossy else read_word2vec pf lossy) c /\
  (forall s, c s <= lenN (s_rest s) + 2 \/
    exists n s1 s2, read_number x20 s = (Ok n, s1) /\ read_number x0a s1 = (Ok 0, s2) /\ c s <= lenN (s_rest s) + 2 + 2 * n) /\
  (forall n p, n * 24 <= isize_max -> c (mkStream (no_dims n) p) = 2 + 2 * n).
Proof.
  destruct (raw_calls pf (Md := Md) lossy) as (c & C & B & X). destruct raw; [exists c; auto|].
  eexists. split; [unfold read_word2vec; eapply ct_bind; [exact C|intros e; apply ct_lift]|]. split.
  - intros s. cbv beta. replace (c s + _) with (c s) by (destruct (read_word2vec_raw pf lossy s) as [[]]; lia). apply B.
  - intros n p L. cbv beta. rewrite <- (X n p L). destruct (read_word2vec_raw pf lossy _) as [[]]; lia.
Qed.
(** No constant will do. *)
Lemma word2vec_slow pf {Md} lossy : exists c, counts (read_word2vec_raw (Md := Md) pf lossy) c /\
  forall k, k <= 384307168202282323 -> exists data, lenN data <= 22 /\ c (mkStream data 0) = 2 * k + 2 /\ (2 <= k -> run_reader (read_word2vec_raw (Md := Md) pf lossy) data = Panic PDuplicateWords).
Proof.
  destruct (raw_calls pf (Md := Md) lossy) as (c & C & B & X). exists c. split; [exact C|]. intros k L. exists (no_dims k).
  split; [apply no_dims_size; unfold isize_max; lia|]. split; [rewrite X; [lia|unfold isize_max; lia]|]. intros K2.
  destruct (no_dims_number k 0) as (p1 & p2 & E1 & E2); [unfold two64; lia|]. unfold run_reader, read_word2vec_raw, bind. rewrite E1, E2.
  unfold alloc_zeros, reserve.
  assert (((fold_left (fun a d => a * nonzero d) [k; 0] 1 <=? isize_max) && (fold_left N.mul [k; 0] 1 * 4 <=? isize_max))%bool = true) as ->.
  { cbn [fold_left]. apply andb_true_iff. split; apply N.leb_le; [|unfold isize_max; lia]. change (nonzero 0) with 1. unfold nonzero, isize_max in *. destruct (N.eqb_spec k 0); lia. }
  destruct (N.leb_spec (k * 24) isize_max) as [_|Q]; [|unfold isize_max in Q; lia].
  destruct (entry_calls 0 lossy) as (ce & CE & _ & _ & WE). destruct (repeat_calls (read_w2v_entry 0 lossy) ce k CE) as (cr & CR & WR & XR). destruct (WE eq_refl p2) as [_ E3]. destruct (XR _ _ E3) as [_ ->].
  unfold lift. rewrite simple_new_dup; [reflexivity|]. intros ND. destruct (N.to_nat k) as [|[|j]] eqn:Q; [lia|lia|]. cbn in ND. inversion ND as [|x l NI]. apply NI. left. reflexivity.
Qed.
