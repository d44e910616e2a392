(** * Codecs of the header, metadata, norms and string chunks. *)
From Verif Require Import Base BaseFacts Utf8 Utf8Facts Stream StreamFacts F32 ChunkIO FileSpec.
Local Open Scope N_scope.

(** A writer and a reader that agree on the byte layout [f] of [a]. *)
Definition codec {A} (w : writer unit) (m : reader A) (f : bytesf) (a : A) : Prop :=
  emits w f /\ reads m f a /\ short m f.

(** Writers whose layout depends on the position. *)
Lemma emits_wpos (w : N -> writer unit) f :
  (forall p, exists g, emits (w p) g /\ g p = f p) -> emits (x <- wposition ;; w x) f.
Proof.
  intros H. apply emits_pos. intros pos k Hk E. destruct (H pos) as (g & Hg & Eg).
  rewrite Hg by auto. rewrite E, Eg. reflexivity.
Qed.

(** Reading and ignoring a [u64]. *)
Lemma reads_skip_u64 {A} (k : reader A) g h a :
  (forall pos, lenN (g pos) = 8) -> reads k h a -> reads (_ <- read_u64 ;; k) (fseq g h) a.
Proof.
  intros L H pos tail brk. unfold fseq, read_u64. unfold bind. rewrite <- app_assoc.
  rewrite read_exact_app by apply L. cbn [ret].
  rewrite <- (L pos), H, lenN_app, N.add_assoc. reflexivity.
Qed.
Lemma short_skip_u64 {A} (k : reader A) g h :
  (forall pos, lenN (g pos) = 8) -> short k h -> short (_ <- read_u64 ;; k) (fseq g h).
Proof.
  intros L H pos p q brk E Hq. unfold fseq in E.
  apply app_eq_app_cases in E as [(d & Hd & E1 & E2)|(d & E1 & E2)].
  - exists ERead. eexists. unfold bind, read_u64, bind. rewrite read_exact_short; [reflexivity|].
    specialize (L pos). rewrite E1, lenN_app in L. destruct d; [tauto|]. rewrite lenN_cons in L. lia.
  - subst p. destruct (H _ _ _ brk E2 Hq) as (e & s' & H'). exists e, s'.
    unfold bind, read_u64, bind. rewrite read_exact_app by apply L. cbn [ret].
    rewrite <- (L pos). exact H'.
Qed.

(** Padding. *)
Lemma padding4_range pos : 1 <= padding4 pos <= 4.
Proof. unfold padding4. lia. Qed.
Lemma padding4_aligned pos : (pos + padding4 pos) mod 4 = 0.
Proof. unfold padding4. lia. Qed.
Lemma padding4_add4 pos k : k mod 4 = 0 -> padding4 (pos + k) = padding4 pos.
Proof. unfold padding4. intros. lia. Qed.
Lemma zeros_lenN n : lenN (zeros n) = n.
Proof. unfold zeros. rewrite lenN_repeat. lia. Qed.

Definition fpad : bytesf := fun pos => zeros (padding4 pos).

Lemma reads_pad {A} (k : reader A) g a :
  reads k g a -> reads (pos <- position ;; seek_forward (padding4 pos) ;;; k) (fseq fpad g) a.
Proof.
  intros H pos tail brk. unfold fseq. unfold bind at 1, position. cbn [s_pos].
  pose proof (reads_seek (zeros (padding4 pos))) as R. rewrite zeros_lenN in R.
  pose proof (reads_bind _ (fun _ => k) _ _ _ _ R H pos tail brk) as B.
  unfold fseq, fconst in B. exact B.
Qed.
Lemma short_pad {A} (k : reader A) g :
  short k g -> (forall pos, g pos <> []) ->
  short (pos <- position ;; seek_forward (padding4 pos) ;;; k) (fseq fpad g).
Proof.
  intros H NE pos p q brk E Hq. unfold bind at 1, position. cbn [s_pos].
  pose proof (short_seek (zeros (padding4 pos)) k g H NE pos p q brk) as B.
  rewrite zeros_lenN in B. apply B; auto.
Qed.

(** Pure checks in front of a reader. *)
Lemma reads_lift {A B} (r : res A) x (k : A -> reader B) f b :
  r = Ok x -> reads (k x) f b -> reads (y <- lift r ;; k y) f b.
Proof. intros -> H. apply reads_pure_l with (a := x); auto. Qed.
Lemma short_lift {A B} (r : res A) x (k : A -> reader B) f :
  r = Ok x -> short (k x) f -> short (y <- lift r ;; k y) f.
Proof. intros -> H. apply short_pure_l with (a := x); auto. Qed.
Lemma reserve_ok {S} n size (s : S) : n * size <= isize_max -> reserve n size s = (Ok tt, s).
Proof. intros. unfold reserve. destruct (N.leb_spec (n * size) isize_max); [reflexivity|lia]. Qed.
Lemma reads_reserve {A} n size (k : reader A) f a :
  n * size <= isize_max -> reads k f a -> reads (reserve n size ;;; k) f a.
Proof. intros H R. apply reads_pure_l with (a := tt); auto. intros; apply reserve_ok; auto. Qed.
Lemma short_reserve {A} n size (k : reader A) f :
  n * size <= isize_max -> short k f -> short (reserve n size ;;; k) f.
Proof. intros H R. apply short_pure_l with (a := tt); auto. intros; apply reserve_ok; auto. Qed.

(** ** Chunk identifiers *)
Lemma chunk_of_num_num c : c <> CHeader -> chunk_of_num (chunk_num c) = Ok c.
Proof. destruct c; intros; try reflexivity. congruence. Qed.
Lemma chunk_num_lt c : chunk_num c < two32.
Proof. destruct c; reflexivity. Qed.
Lemma chunk_eqb_refl c : chunk_eqb c c = true.
Proof. apply N.eqb_refl. Qed.
Lemma chunk_num_inj c d : chunk_num c = chunk_num d -> c = d.
Proof. destruct c, d; intros H; try reflexivity; discriminate. Qed.
Lemma chunk_eqb_eq c d : chunk_eqb c d = true <-> c = d.
Proof.
  unfold chunk_eqb. rewrite N.eqb_eq. split; [apply chunk_num_inj|congruence].
Qed.

Lemma reads_chunk_type c : c <> CHeader ->
  reads (ensure_chunk_type c) (fconst (le_bytes 4 (chunk_num c))) tt.
Proof.
  intros H. unfold ensure_chunk_type.
  eapply reads_ext; [|eapply reads_bind; [apply (reads_u32 (chunk_num c)), chunk_num_lt|]].
  2:{ eapply reads_lift; [apply chunk_of_num_num; auto|]. cbv beta. rewrite chunk_eqb_refl. apply reads_ret. }
  intros pos. unfold fseq, fconst. apply app_nil_r.
Qed.
Lemma short_chunk_type c : c <> CHeader ->
  short (ensure_chunk_type c) (fconst (le_bytes 4 (chunk_num c))).
Proof.
  intros H. unfold ensure_chunk_type.
  eapply short_ext; [|eapply short_bind; [apply (reads_u32 (chunk_num c)), chunk_num_lt|apply short_u32|]].
  2:{ eapply short_lift; [apply chunk_of_num_num; auto|]. cbv beta. rewrite chunk_eqb_refl. apply short_ret. }
  intros pos. unfold fseq, fconst. apply app_nil_r.
Qed.
Lemma reads_data_type t : t < two32 -> reads (ensure_data_type t) (fconst (le_bytes 4 t)) tt.
Proof.
  intros H. unfold ensure_data_type.
  eapply reads_ext; [|eapply reads_bind; [apply reads_u32, H|]].
  2:{ cbv beta. rewrite N.eqb_refl. apply reads_ret. }
  intros pos. unfold fseq, fconst. apply app_nil_r.
Qed.
Lemma short_data_type t : t < two32 -> short (ensure_data_type t) (fconst (le_bytes 4 t)).
Proof.
  intros H. unfold ensure_data_type.
  eapply short_ext; [|eapply short_bind; [apply reads_u32, H|apply short_u32|]].
  2:{ cbv beta. rewrite N.eqb_refl. apply short_ret. }
  intros pos. unfold fseq, fconst. apply app_nil_r.
Qed.

Ltac layout := intros; unfold fseq, fconst, fpad; cbn [app];
  rewrite <- ?app_assoc, ?app_nil_r, ?app_nil_l; try reflexivity.

(** ** Header *)
Definition header_bytes (ids : list chunk_id) : list byte :=
  magic ++ le_bytes 4 0 ++ le_bytes 4 (lenN ids) ++ flat_map (fun c => le_bytes 4 (chunk_num c)) ids.

Lemma reads_chunk_id c : c <> CHeader ->
  reads (i <- read_u32 ;; lift (chunk_of_num i)) (fconst (le_bytes 4 (chunk_num c))) c.
Proof.
  intros H pos tail brk. unfold bind, lift. rewrite reads_u32 by apply chunk_num_lt.
  rewrite chunk_of_num_num by auto. reflexivity.
Qed.
Lemma short_chunk_id c :
  short (i <- read_u32 ;; lift (chunk_of_num i)) (fconst (le_bytes 4 (chunk_num c))).
Proof.
  intros pos p q brk E Hq. destruct (short_u32 (chunk_num c) pos p q brk E Hq) as (e & s' & H).
  exists e, s'. unfold bind. rewrite H. reflexivity.
Qed.

Lemma header_codec ids :
  ~ In CHeader ids -> lenN ids < two32 ->
  codec (write_header ids) read_header (fconst (header_bytes ids)) ids.
Proof.
  intros NH L. split; [|split].
  - unfold write_header. eapply emits_ext; [|eapply emits_seq; [apply emits_bytes|
      eapply emits_seq; [apply emits_u32|eapply emits_seq; [apply emits_u32|
        apply emits_for_each_const; intros; apply emits_u32]]]].
    layout.
  - unfold read_header. eapply reads_ext; [|eapply reads_bind; [exact (reads_exact magic)|]].
    2:{ cbn [negb str_eqb magic]. cbv beta.
        replace (negb (str_eqb magic magic)) with false by (rewrite str_eqb_refl; reflexivity).
        eapply reads_bind; [apply (reads_u32 0); reflexivity|]. cbv beta.
        change (negb (0 =? model_version)) with false. cbv iota.
        eapply reads_bind; [apply reads_u32, L|]. cbv beta.
        apply reads_repeat_const. intros c Hc. apply reads_chunk_id. intros ->. tauto. }
    layout.
  - unfold read_header. eapply short_ext; [|eapply short_bind; [exact (reads_exact magic)|exact (short_exact magic)|]].
    2:{ cbv beta.
        replace (negb (str_eqb magic magic)) with false by (rewrite str_eqb_refl; reflexivity).
        eapply short_bind; [apply (reads_u32 0); reflexivity|apply short_u32|]. cbv beta.
        change (negb (0 =? model_version)) with false. cbv iota.
        eapply short_bind; [apply reads_u32, L|apply short_u32|]. cbv beta.
        apply short_repeat_const; intros c Hc; [apply reads_chunk_id; intros ->; tauto|apply short_chunk_id]. }
    layout.
Qed.

(** ** Metadata *)
Section Meta.
  Variable T : toml_ops.
  Hypothesis TL : toml_law T.

  Definition metadata_bytes (t : toml_table T) : list byte :=
    le_bytes 4 5 ++ le_bytes 8 (lenN (toml_print T t)) ++ toml_print T t.

  Lemma metadata_codec t :
    lenN (toml_print T t) <= isize_max ->
    codec (write_metadata T t) (read_metadata_chunk T) (fconst (metadata_bytes t)) t.
  Proof.
    intros L. assert (lenN (toml_print T t) < two64) as L64 by (unfold isize_max, two64 in *; lia).
    destruct (TL t) as [TP TV]. split; [|split].
    - unfold write_metadata. eapply emits_ext; [|eapply emits_seq; [apply emits_u32|
        eapply emits_seq; [apply emits_u64|apply emits_bytes]]].
      layout.
    - unfold read_metadata_chunk. eapply reads_ext; [|eapply reads_bind; [apply reads_chunk_type; discriminate|]].
      2:{ cbv beta. eapply reads_bind; [apply reads_u64, L64|]. cbv beta.
          apply reads_reserve; [lia|].
          eapply reads_bind; [apply reads_exact|]. cbv beta. rewrite TV, TP. apply reads_ret. }
      layout.
    - unfold read_metadata_chunk. eapply short_ext;
        [|eapply short_bind; [apply reads_chunk_type; discriminate|apply short_chunk_type; discriminate|]].
      2:{ cbv beta. eapply short_bind; [apply reads_u64, L64|apply short_u64|]. cbv beta.
          apply short_reserve; [lia|].
          eapply short_bind; [apply reads_exact|apply short_exact|]. cbv beta. rewrite TV, TP. apply short_ret. }
      layout.
  Qed.
End Meta.

(** ** Floats *)
Lemma f32s_bytes_lenN l : lenN (f32s_bytes l) = 4 * lenN l.
Proof.
  induction l as [|[a b c d] l IH]; [reflexivity|].
  unfold f32s_bytes in *. cbn [flat_map f32_bytes app]. rewrite !lenN_cons. lia.
Qed.
Lemma f32s_of_bytes_bytes l : f32s_of_bytes (f32s_bytes l) = l.
Proof.
  induction l as [|[a b c d] l IH]; [reflexivity|].
  unfold f32s_bytes in *. cbn [flat_map f32_bytes app f32s_of_bytes]. rewrite IH. reflexivity.
Qed.
Lemma f32s_bytes_app a b : f32s_bytes (a ++ b) = f32s_bytes a ++ f32s_bytes b.
Proof. apply flat_map_app. Qed.

Lemma emits_f32s l : emits (write_f32s l) (fconst (f32s_bytes l)).
Proof. apply emits_for_each_const. intros. apply emits_bytes. Qed.
Lemma reads_f32s l n : n = lenN l -> reads (read_f32s n) (fconst (f32s_bytes l)) l.
Proof.
  intros ->. unfold read_f32s. rewrite <- f32s_bytes_lenN.
  pose proof (reads_map (read_exact (lenN (f32s_bytes l))) f32s_of_bytes _ _ (reads_exact _)) as R.
  rewrite f32s_of_bytes_bytes in R. exact R.
Qed.
Lemma short_f32s l n : n = lenN l -> short (read_f32s n) (fconst (f32s_bytes l)).
Proof.
  intros ->. unfold read_f32s. rewrite <- f32s_bytes_lenN. apply short_map, short_exact.
Qed.

(** ** Norms *)
Definition norms_bytes (ns : list f32) : bytesf := fun pos =>
  le_bytes 4 6 ++ le_bytes 8 (8 + 4 + lenN ns * 4 + padding4 pos)
  ++ le_bytes 8 (lenN ns) ++ le_bytes 4 10 ++ zeros (padding4 pos) ++ f32s_bytes ns.

Lemma norms_reads_short ns :
  lenN ns * 4 <= isize_max ->
  reads read_norms (norms_bytes ns) ns /\ (ns <> [] -> short read_norms (norms_bytes ns)).
Proof.
  intros L. assert (lenN ns < two64) as L64 by (unfold isize_max, two64 in *; lia).
  assert (forall pos, norms_bytes ns pos =
    fseq (fconst (le_bytes 4 (chunk_num CNdNorms)))
      (fseq (fun p => le_bytes 8 (8 + 4 + lenN ns * 4 + padding4 p))
        (fseq (fconst (le_bytes 8 (lenN ns))) (fseq (fconst (le_bytes 4 10))
           (fseq fpad (fconst (f32s_bytes ns)))))) pos) as E.
  { intros pos. unfold norms_bytes, fseq, fconst, fpad. rewrite !le_bytes_lenN, <- ?app_assoc.
    change (chunk_num CNdNorms) with 6.
    rewrite (padding4_add4 pos (N.of_nat 4)) by reflexivity.
    replace (pos + N.of_nat 4 + N.of_nat 8 + N.of_nat 8 + N.of_nat 4) with (pos + 24) by lia.
    rewrite (padding4_add4 pos 24) by reflexivity. reflexivity. }
  split.
  - eapply reads_ext; [symmetry; apply E|]. unfold read_norms.
    eapply reads_bind; [apply reads_chunk_type; discriminate|]. cbv beta.
    apply reads_skip_u64; [intros; apply le_bytes_lenN|].
    eapply reads_bind; [apply reads_u64, L64|]. cbv beta.
    eapply reads_bind; [apply reads_data_type; reflexivity|]. cbv beta.
    apply reads_pad. apply reads_reserve; [lia|]. apply reads_f32s. reflexivity.
  - intros NE. eapply short_ext; [symmetry; apply E|]. unfold read_norms.
    eapply short_bind; [apply reads_chunk_type; discriminate|apply short_chunk_type; discriminate|]. cbv beta.
    apply short_skip_u64; [intros; apply le_bytes_lenN|].
    eapply short_bind; [apply reads_u64, L64|apply short_u64|]. cbv beta.
    eapply short_bind; [apply reads_data_type; reflexivity|apply short_data_type; reflexivity|]. cbv beta.
    apply short_pad.
    + apply short_reserve; [lia|]. apply short_f32s. reflexivity.
    + intros pos. unfold fconst. destruct ns as [|[]]; [tauto|discriminate].
Qed.

Lemma norms_emits ns : emits (write_norms ns) (norms_bytes ns).
Proof.
  unfold write_norms. eapply emits_ext; [|eapply emits_seq; [apply emits_u32|
    apply (emits_wpos _ (fun p => le_bytes 8 (8 + 4 + lenN ns * 4 + padding4 p)
      ++ le_bytes 8 (lenN ns) ++ le_bytes 4 10 ++ zeros (padding4 p) ++ f32s_bytes ns))]].
  - intros pos. unfold fseq, fconst, norms_bytes. rewrite le_bytes_lenN.
    rewrite (padding4_add4 pos (N.of_nat 4)) by reflexivity. reflexivity.
  - intros p. eexists. split.
    + eapply emits_seq; [apply emits_u64|]. eapply emits_seq; [apply emits_u64|].
      eapply emits_seq; [apply emits_u32|]. eapply emits_seq; [apply emits_bytes|]. apply emits_f32s.
    + unfold fseq, fconst, norms_chunk_len. rewrite (padding4_add4 p 4) by reflexivity.
      replace (4 + 8 + 8 + 4 + lenN ns * 4 + padding4 p - (4 + 8))
        with (8 + 4 + lenN ns * 4 + padding4 p) by lia.
      reflexivity.
Qed.

Lemma norms_bytes_len ns pos : lenN (norms_bytes ns pos) = norms_chunk_len ns pos.
Proof.
  unfold norms_bytes, norms_chunk_len. rewrite !lenN_app, !le_bytes_lenN, zeros_lenN, f32s_bytes_lenN.
  rewrite (padding4_add4 pos 4) by reflexivity. lia.
Qed.

(** ** Strings *)
Definition string_bytes (s : str) : list byte := le_bytes 4 (lenN s) ++ s.

Lemma string_codec s : str_ok s ->
  codec (write_string s) read_string_item (fconst (string_bytes s)) s.
Proof.
  intros [V L]. split; [|split].
  - unfold write_string. eapply emits_ext; [|eapply emits_seq; [apply emits_u32|apply emits_bytes]]. layout.
  - unfold read_string_item. eapply reads_ext; [|eapply reads_bind; [apply reads_u32, L|]].
    2:{ cbv beta. eapply reads_bind; [apply reads_exact|]. cbv beta. rewrite V. apply reads_ret. }
    layout.
  - unfold read_string_item. eapply short_ext; [|eapply short_bind; [apply reads_u32, L|apply short_u32|]].
    2:{ cbv beta. eapply short_bind; [apply reads_exact|apply short_exact|]. cbv beta. rewrite V. apply short_ret. }
    layout.
Qed.

Lemma items_codec l n : Forall str_ok l -> n = lenN l -> lenN l * 24 <= isize_max ->
  codec (write_items l) (read_items n) (fconst (flat_map string_bytes l)) l.
Proof.
  intros H -> L. rewrite Forall_forall in H. split; [|split].
  - apply emits_for_each_const. intros s Hs. apply string_codec; auto.
  - unfold read_items. apply reads_reserve; [lia|]. apply reads_repeat_const. intros s Hs. apply string_codec; auto.
  - unfold read_items. apply short_reserve; [lia|]. apply short_repeat_const; intros s Hs; apply string_codec; auto.
Qed.

(** ** Framed chunks

    Every chunk after the header consists of its identifier, the length of
    its body and the body.  [body] is the layout of the body at the position
    at which it starts. *)
Definition framed (id : N) (body : bytesf) : bytesf := fun pos =>
  le_bytes 4 id ++ le_bytes 8 (lenN (body (pos + 12))) ++ body (pos + 12).

Lemma framed_fseq id body pos :
  framed id body pos =
  fseq (fconst (le_bytes 4 id)) (fseq (fun p => le_bytes 8 (lenN (body (p + 8)))) body) pos.
Proof.
  unfold framed, fseq, fconst. rewrite !le_bytes_lenN.
  replace (pos + N.of_nat 4 + 8) with (pos + 12) by lia.
  replace (pos + N.of_nat 4 + N.of_nat 8) with (pos + 12) by lia. reflexivity.
Qed.

Lemma reads_framed {A} c (k : reader A) body a :
  c <> CHeader -> reads k body a ->
  reads (ensure_chunk_type c ;;; _ <- read_u64 ;; k) (framed (chunk_num c) body) a.
Proof.
  intros H R. eapply reads_ext; [symmetry; apply framed_fseq|].
  eapply reads_bind; [apply reads_chunk_type, H|]. cbv beta.
  apply reads_skip_u64; [intros; apply le_bytes_lenN|exact R].
Qed.
Lemma short_framed {A} c (k : reader A) body :
  c <> CHeader -> short k body ->
  short (ensure_chunk_type c ;;; _ <- read_u64 ;; k) (framed (chunk_num c) body).
Proof.
  intros H R. eapply short_ext; [symmetry; apply framed_fseq|].
  eapply short_bind; [apply reads_chunk_type, H|apply short_chunk_type, H|]. cbv beta.
  apply short_skip_u64; [intros; apply le_bytes_lenN|exact R].
Qed.
Lemma emits_framed_const id n w b :
  n = lenN b -> emits w (fconst b) ->
  emits (write_u32 id ;;; write_u64 n ;;; w) (framed id (fconst b)).
Proof.
  intros -> H. eapply emits_ext; [|eapply emits_seq; [apply emits_u32|eapply emits_seq; [apply emits_u64|exact H]]].
  intros pos. unfold framed, fseq, fconst. reflexivity.
Qed.
Lemma framed_len id body pos : lenN (framed id body pos) = 12 + lenN (body (pos + 12)).
Proof. unfold framed. rewrite !lenN_app, !le_bytes_lenN. lia. Qed.

Definition norms_body (ns : list f32) : bytesf := fun pos =>
  le_bytes 8 (lenN ns) ++ le_bytes 4 10 ++ zeros (padding4 (pos + 12)) ++ f32s_bytes ns.

Lemma norms_framed ns pos : norms_bytes ns pos = framed 6 (norms_body ns) pos.
Proof.
  unfold norms_bytes, framed, norms_body.
  replace (pos + 12 + 12) with (pos + 24) by lia.
  rewrite (padding4_add4 pos 24) by reflexivity.
  rewrite !lenN_app, !le_bytes_lenN, zeros_lenN, f32s_bytes_lenN. do 3 f_equal. lia.
Qed.

Lemma norms_codec ns :
  lenN ns * 4 <= isize_max ->
  emits (write_norms ns) (framed 6 (norms_body ns)) /\
  reads read_norms (framed 6 (norms_body ns)) ns /\
  (ns <> [] -> short read_norms (framed 6 (norms_body ns))).
Proof.
  intros L. destruct (norms_reads_short ns L) as [R S]. split; [|split].
  - eapply emits_ext; [apply norms_framed|apply norms_emits].
  - eapply reads_ext; [apply norms_framed|exact R].
  - intros NE. eapply short_ext; [apply norms_framed|auto].
Qed.

Lemma metadata_framed T t pos :
  metadata_bytes T t = framed 5 (fconst (toml_print T t)) pos.
Proof. reflexivity. Qed.
