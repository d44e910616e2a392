(** * Which text is shown when a device is full. *)
From Coq Require Import Strings.String.
From Verif Require Import Base BaseFacts Utf8 Stream StreamFacts F32 ChunkIO ChunkFacts Subword Vocab Storage Embeddings TextIO
  FileSpec FastText Messages MessageSpec WriteMessages WriteSpec.
Local Open Scope N_scope.

(** ** Tables *)
Lemma missing_app_l f g i e : missing f i = Some e -> missing (f ++ g) i = Some e.
Proof. revert i. induction f as [|[n e'|n] f IH]; intros i; cbn [missing app]; [discriminate| |auto]. destruct (i <? n); auto. Qed.
Lemma missing_app_r f g i : fields_len f <= i -> missing (f ++ g) i = missing g (i - fields_len f).
Proof.
  revert i. induction f as [|[n e'|n] f IH]; intros i; cbn [missing app fields_len field_len]; intros H.
  - f_equal; lia.
  - destruct (N.ltb_spec i n); [lia|]. rewrite IH by lia. f_equal; lia.
  - rewrite IH by lia. f_equal; lia.
Qed.
Lemma fields_len_app f g : fields_len (f ++ g) = fields_len f + fields_len g.
Proof. induction f as [|x f IH]; cbn [fields_len app]; lia. Qed.

(** [g] says the same as [f]. *)
Definition covers (f g : list field) : Prop :=
  fields_len g = fields_len f /\ forall i e, missing f i = Some e -> missing g i = Some e.
Lemma covers_refl f : covers f f. Proof. split; auto. Qed.
Lemma covers_app f f' g g' : covers f f' -> covers g g' -> (forall i, missing f i = None -> fields_len f <= i) ->
  covers (f ++ g) (f' ++ g').
Proof.
  intros [L1 M1] [L2 M2] C. split; [rewrite !fields_len_app; lia|]. intros i e H. destruct (missing f i) as [e1|] eqn:E.
  - rewrite (missing_app_l _ _ _ _ E) in H. injection H as <-. apply missing_app_l. auto.
  - apply C in E. rewrite missing_app_r in H by exact E. rewrite missing_app_r by lia. rewrite L1. auto.
Qed.
(** One field after the other with the same text. *)
Lemma covers_merge e (l : list N) : covers (map (fun n => Fld n e) l) [Fld (fold_right N.add 0 l) e].
Proof.
  split.
  - induction l as [|n l IH]; cbn [map fold_right fields_len field_len] in *; lia.
  - intros i e' H. cbn [missing]. enough (i < fold_right N.add 0 l /\ e' = e) as [? ->].
    { destruct (N.ltb_spec i (fold_right N.add 0 l)); [reflexivity|lia]. }
    revert i H. induction l as [|n l IH]; cbn [map missing fold_right]; [discriminate|]. intros i.
    destruct (N.ltb_spec i n) as [H|H]; [intros X; injection X as <-; split; [lia|reflexivity]|].
    intros X. apply IH in X as [X ->]. split; [lia|reflexivity].
Qed.

(** ** Writers and their tables *)
Definition says (w : writer unit) (d : W unit) (fs : N -> list field) : Prop :=
  forall b o k', w (mkSink b o None) = (Ok tt, k') ->
  exists bs, k' = mkSink b (o ++ bs) None /\ fields_len (fs (b + lenN o)) = lenN bs /\
  forall c, lenN o <= c ->
    (lenN bs <= c - lenN o -> d (mkSink b o (Some c)) = (MOk tt, mkSink b (o ++ bs) (Some c))) /\
    (c - lenN o < lenN bs -> exists e, missing (fs (b + lenN o)) (c - lenN o) = Some e /\
       d (mkSink b o (Some c)) = (MErr e, mkSink b (o ++ takeN (c - lenN o) bs) (Some c))).

Lemma says_run w d fs base bytes : says w d fs -> run_writer w base = Ok bytes -> tells_room d base bytes (fs base).
Proof.
  intros S R. unfold run_writer in R. destruct (w (mkSink base [] None)) as [[[]|e|p] k'] eqn:E; try discriminate.
  injection R as <-. destruct (S _ _ _ E) as (bs & -> & L & C). cbn [k_out app]. change (lenN (@nil byte)) with 0 in *.
  rewrite N.add_0_r in *. split; [exact L|]. intros c. specialize (C c ltac:(lia)) as [C1 C2]. rewrite N.sub_0_r in *.
  destruct (N.leb_spec (lenN bs) c); [auto|]. apply C2. lia.
Qed.
Lemma says_ext w d fs gs : (forall p, covers (fs p) (gs p)) -> says w d fs -> says w d gs.
Proof.
  intros C S b o k' H. destruct (S _ _ _ H) as (bs & -> & L & K). exists bs. destruct (C (b + lenN o)) as [CL CM].
  split; [reflexivity|]. split; [congruence|]. intros c Hc. destruct (K c Hc) as [K1 K2]. split; [exact K1|].
  intros X. destruct (K2 X) as (e & M & E). exists e. auto.
Qed.
Lemma says_eq w d fs gs : (forall p, fs p = gs p) -> says w d fs -> says w d gs.
Proof. intros E. apply says_ext. intros p. rewrite E. apply covers_refl. Qed.

(** A single call. *)
Lemma says_one bs d e : (forall k k', write_bytes bs k = (Ok tt, k') -> d k = (MOk tt, k')) ->
  (forall k x k', write_bytes bs k = (Err x, k') -> d k = (MErr e, k')) -> says (write_bytes bs) d (fun _ => [Fld (lenN bs) e]).
Proof.
  intros HO HE b o k' H. unfold write_bytes in H. cbn [k_cap] in H. unfold push in H. cbn [k_base k_out k_cap] in H. injection H as <-.
  exists bs. split; [reflexivity|]. split; [cbn [fields_len field_len]; lia|]. intros c Hc. split.
  - intros X. apply HO. unfold write_bytes, push. cbn [k_cap k_base k_out]. destruct (N.leb_spec (lenN o + lenN bs) c); [reflexivity|lia].
  - intros X. exists e. split; [cbn [missing]; destruct (N.ltb_spec (c - lenN o) (lenN bs)); [reflexivity|lia]|].
    apply (HE _ EWrite). unfold write_bytes, push. cbn [k_cap k_base k_out]. destruct (N.leb_spec (lenN o + lenN bs) c); [lia|reflexivity].
Qed.
Lemma says_bytes bs what : says (write_bytes bs) (wbytes bs what) (fun _ => [wd (lenN bs) what]).
Proof. apply says_one; [intros k k' E|intros k x k' E]; unfold wbytes, wio; rewrite E; reflexivity. Qed.
Lemma says_8 n what : says (write_u8 n) (w8 n what) (fun _ => [wd 1 what]).
Proof. apply (says_eq _ _ _ _ (fun _ => f_equal (fun l => [wd l what]) (le_bytes_lenN 1 n)) (says_bytes _ _)). Qed.
Lemma says_32 n what : says (write_u32 n) (w32 n what) (fun _ => [wd 4 what]).
Proof. apply (says_eq _ _ _ _ (fun _ => f_equal (fun l => [wd l what]) (le_bytes_lenN 4 n)) (says_bytes _ _)). Qed.
Lemma says_64 n what : says (write_u64 n) (w64 n what) (fun _ => [wd 8 what]).
Proof. apply (says_eq _ _ _ _ (fun _ => f_equal (fun l => [wd l what]) (le_bytes_lenN 8 n)) (says_bytes _ _)). Qed.
Lemma says_ret : says (ret tt) (wret tt) (fun _ => []).
Proof.
  intros b o k' H. injection H as <-. exists []. rewrite app_nil_r. split; [reflexivity|]. split; [reflexivity|].
  intros c _. split; [reflexivity|]. change (lenN (@nil byte)) with 0. lia.
Qed.

Lemma says_seq w1 d1 f1 w2 d2 f2 : says w1 d1 f1 -> says w2 d2 f2 ->
  says (Stream.bind w1 (fun _ => w2)) (wbind d1 (fun _ => d2)) (fun p => f1 p ++ f2 (p + fields_len (f1 p))).
Proof.
  intros S1 S2 b o k' H. unfold Stream.bind in H. destruct (w1 (mkSink b o None)) as [[[]|e|p] k1] eqn:E1; try discriminate.
  destruct (S1 _ _ _ E1) as (bs1 & -> & L1 & C1). destruct (S2 _ _ _ H) as (bs2 & -> & L2 & C2).
  exists (bs1 ++ bs2). rewrite <- app_assoc. split; [reflexivity|]. rewrite lenN_app, N.add_assoc, <- L1 in L2.
  split; [rewrite fields_len_app, lenN_app; lia|]. intros c Hc. destruct (C1 c Hc) as [A1 B1]. rewrite lenN_app. unfold wbind. split.
  - intros X. rewrite A1 by lia. destruct (C2 c) as [A2 _]; [rewrite lenN_app; lia|]. rewrite A2, <- app_assoc; [reflexivity|]. rewrite lenN_app. lia.
  - intros X. destruct (N.lt_ge_cases (c - lenN o) (lenN bs1)) as [Y|Y].
    + destruct (B1 Y) as (e & M & ->). exists e. split; [apply missing_app_l, M|]. rewrite takeN_app_le by lia. reflexivity.
    + rewrite A1 by exact Y. destruct (C2 c) as [_ B2]; [rewrite lenN_app; lia|]. destruct B2 as (e & M & ->); [rewrite lenN_app; lia|].
      exists e. rewrite lenN_app, N.add_assoc, <- L1 in M. split.
      * rewrite missing_app_r by lia. replace (c - lenN o - fields_len (f1 (b + lenN o))) with (c - (lenN o + fields_len (f1 (b + lenN o)))) by lia. exact M.
      * rewrite takeN_app_ge by lia. rewrite <- app_assoc, lenN_app. do 4 f_equal. f_equal. lia.
Qed.
Lemma says_pos w d f : (forall q, says (w q) (d q) (f q)) -> says (Stream.bind wposition w) (wbind wpos d) (fun p => f p p).
Proof.
  intros S b o k' H. unfold Stream.bind, wposition in H. destruct (S _ _ _ _ H) as (bs & -> & L & C). exists bs. unfold k_pos in *. cbn [k_base k_out] in *.
  split; [reflexivity|]. split; [exact L|]. intros c Hc. exact (C c Hc).
Qed.
Lemma says_lift {A} (r : res A) w d f : (forall a, r = Ok a -> says (w a) (d a) (f a)) ->
  says (Stream.bind (lift r) w) (wbind (wlift r) d) (fun p => match r with Ok a => f a p | _ => [] end).
Proof.
  intros S b o k' H. unfold Stream.bind, lift in H. destruct r as [a|e|p]; try discriminate. exact (S a eq_refl _ _ _ H).
Qed.
Lemma says_for_each {A} (l : list A) w d (f : A -> list field) : (forall a, In a l -> says (w a) (d a) (fun _ => f a)) ->
  says (for_each l w) (wfor_each l d) (fun _ => flat_map f l).
Proof.
  induction l as [|a l IH]; intros S; cbn [for_each wfor_each flat_map]; [apply says_ret|].
  apply (says_seq _ _ (fun _ => f a) _ _ (fun _ => flat_map f l)); [apply S; left; reflexivity|apply IH]. intros x H. apply S. right. exact H.
Qed.
(** A loop whose calls all have the same text. *)
Lemma says_loop {A} (l : list A) w d (n : A -> N) e : (forall a, In a l -> says (w a) (d a) (fun _ => [Fld (n a) e])) ->
  says (for_each l w) (wfor_each l d) (fun _ => [Fld (fold_right N.add 0 (map n l)) e]).
Proof.
  intros S. eapply says_ext; [|apply says_for_each, S]. intros p. cbv beta.
  replace (flat_map (fun a => [Fld (n a) e]) l) with (map (fun k => Fld k e) (map n l)); [apply covers_merge|].
  induction l as [|a l IH]; [reflexivity|]. cbn [map flat_map app]. f_equal. apply IH. intros x H. apply S. right. exact H.
Qed.
Lemma sum_const {A} (l : list A) n : fold_right N.add 0 (map (fun _ => n) l) = n * lenN l.
Proof. induction l as [|a l IH]; [symmetry; apply N.mul_0_r|]. cbn [map fold_right]. rewrite IH, lenN_cons. lia. Qed.
Lemma says_floats l what : says (write_f32s l) (wfloats l what) (fun _ => [wd (4 * lenN l) what]).
Proof.
  eapply says_eq; [|apply (says_loop l _ _ (fun _ => 4) (MWrite (txt what)))].
  - intros p. cbv beta. rewrite sum_const. reflexivity.
  - intros x _. assert (lenN (f32_bytes x) = 4) as E by (destruct x; reflexivity).
    apply (says_eq _ _ _ _ (fun _ => f_equal (fun l => [wd l what]) E) (says_bytes _ _)).
Qed.
Lemma sum_concat {A} (l : list (list A)) n : fold_right N.add 0 (map (fun r => n * lenN r) l) = n * lenN (concat l).
Proof. induction l as [|a l IH]; [symmetry; apply N.mul_0_r|]. cbn [map fold_right concat]. rewrite IH, lenN_app. lia. Qed.
Lemma says_matrix l what : says (for_each l write_f32s) (wfor_each l (fun row => wfloats row what)) (fun _ => [wd (4 * lenN (concat l)) what]).
Proof.
  eapply says_eq; [|apply (says_loop l _ _ (fun r => 4 * lenN r) (MWrite (txt what)))].
  - intros p. cbv beta. rewrite sum_concat. reflexivity.
  - intros r _. apply says_floats.
Qed.
Definition in_ctx (what : string) (f : field) : field :=
  match f with Fld n e => Fld n (MContext (txt what) e) | Pad n => Pad n end.
Lemma says_context what w d f : says w d f -> says w (wcontext what d) (fun p => map (in_ctx what) (f p)).
Proof.
  intros S b o k' H. destruct (S _ _ _ H) as (bs & -> & L & C). exists bs. split; [reflexivity|]. split.
  - rewrite <- L. generalize (f (b + lenN o)). intros l. induction l as [|[|] l IH]; cbn [map in_ctx fields_len field_len] in *; lia.
  - intros c Hc. destruct (C c Hc) as [A B]. unfold wcontext. split; [intros X; rewrite (A X); reflexivity|].
    intros X. destruct (B X) as (e & M & ->). exists (MContext (txt what) e). split; [|reflexivity].
    revert M. generalize (c - lenN o). generalize (f (b + lenN o)). intros l. induction l as [|[|] l IH]; intros i; cbn [map in_ctx missing]; [discriminate| |auto].
    destruct (i <? n); [congruence|auto].
Qed.

(** ** finalfusion files *)
Lemma says_string s : says (write_string s) (tell_string s) (fun _ => wstring s).
Proof. eapply says_eq; [|apply says_seq; [apply says_32|apply says_bytes]]. reflexivity. Qed.
Lemma says_items l : says (write_items l) (tell_items l) (fun _ => flat_map wstring l).
Proof. apply says_for_each. intros s _. apply says_string. Qed.

Ltac sy := repeat (first [ apply says_32 | apply says_64 | apply says_8 | apply says_bytes | apply says_items | apply says_floats | apply says_matrix
  | apply says_context; apply says_string | apply says_seq | (apply (says_pos _ _ (fun q _ => _)); intros q) ]).

Lemma says_header ids : says (write_header ids) (tell_header ids) (fun _ => wheader (lenN ids)).
Proof.
  eapply says_eq; [|unfold write_header, tell_header; apply says_seq; [apply says_bytes|apply says_seq; [apply says_32|apply says_seq; [apply says_32|]]]].
  2:{ apply (says_for_each ids _ _ (fun _ => [wd 4 "Cannot write chunk identifier"])). intros c _. apply says_32. }
  intros p. cbv beta. unfold wheader. cbn [app]. do 3 f_equal. unfold lenN. rewrite Nat2N.id. clear. induction ids as [|x ids IH]; [reflexivity|].
  cbn [length repeat flat_map app]. rewrite IH. reflexivity.
Qed.
Lemma says_metadata T t : says (write_metadata T t) (tell_metadata T t) (fun _ => wmetadata (lenN (toml_print T t))).
Proof. eapply says_eq; [|unfold write_metadata, tell_metadata; sy]. reflexivity. Qed.
Lemma pad_here p : (p + 4) mod 4 = p mod 4.
Proof. rewrite <- N.add_mod_idemp_r by discriminate. change (4 mod 4) with 0. rewrite N.add_0_r. reflexivity. Qed.
Lemma says_norms ns : says (write_norms ns) (tell_norms ns) (fun p => wnorms (lenN ns) p).
Proof.
  eapply says_eq; [|unfold write_norms, tell_norms; apply says_seq; [apply says_32|]; apply (says_pos _ _ (fun q _ => tl (wnorms (lenN ns) q))); intros q].
  2:{ eapply says_eq; [|sy]. intros p. cbv beta. cbn [app]. rewrite zeros_lenN. reflexivity. }
  intros p. cbv beta. cbn [fields_len field_len wd]. rewrite N.add_0_r. unfold wnorms, wnd, wqa. cbn [tl app]. rewrite pad_here. reflexivity.
Qed.

Lemma says_vocab v : says (write_vocab_wrap v) (tell_vocab v) (fun _ => wvocab v).
Proof.
  destruct v as [v|v|v|v|v]; cbn [write_vocab_wrap tell_vocab wvocab].
  - eapply says_eq; [|unfold write_simple, tell_simple; apply says_seq; [apply says_32|]; apply (says_pos _ _ (fun q _ => tl (wvocab (VSimple v)))); intros q; eapply says_eq; [|sy]; reflexivity].
    reflexivity.
  - eapply says_eq; [|unfold write_explicit, tell_explicit; do 6 (apply says_seq; [sy|]); apply says_seq; [sy|]].
    2:{ apply (says_for_each _ _ _ wngram). intros g _.
        intros b o k' H. unfold Stream.bind at 1, lift at 1 in H. unfold tell_ngram, wbind at 1, wlift at 1.
        destruct (explicit_index _ _) as [[|i [|]]|e|p]; try discriminate.
        assert (says (Stream.bind (write_u32 (lenN g)) (fun _ => Stream.bind (write_bytes g) (fun _ => write_u64 i)))
          (wbind (w32 (lenN g) "Cannot write ngram length") (fun _ => wbind (wbytes g "Cannot write ngram") (fun _ => w64 i "Cannot write ngram idx")))
          (fun _ => wngram g)) as S.
        { eapply says_eq; [|apply says_seq; [apply says_32|apply says_seq; [apply says_bytes|apply says_64]]]. reflexivity. }
        exact (S b o k' H). }
    intros p. cbv beta. cbn [app]. reflexivity.
  - eapply says_eq; [|unfold write_bucketed, tell_bucketed; sy]. reflexivity.
  - eapply says_eq; [|unfold write_floret, tell_floret; do 7 (apply says_seq; [sy|]); apply says_seq; apply says_context; apply says_string].
    reflexivity.
  - eapply says_eq; [|unfold write_bucketed, tell_bucketed; sy]. reflexivity.
Qed.

Lemma says_ndarray a : says (write_ndarray a) (tell_ndarray a) (wnd a).
Proof.
  eapply says_eq; [|unfold write_ndarray, tell_ndarray; apply says_seq; [apply says_32|]; apply (says_pos _ _ (fun q _ => tl (wnd a q))); intros q].
  2:{ eapply says_eq; [|sy]. intros p. cbv beta. cbn [app]. rewrite zeros_lenN. reflexivity. }
  intros p. cbv beta. cbn [fields_len field_len wd]. rewrite N.add_0_r. unfold wnorms, wnd, wqa. cbn [tl app]. rewrite pad_here. reflexivity.
Qed.
Lemma says_quantized q : says (write_quantized q) (tell_quantized q) (wqa q).
Proof.
  eapply says_eq; [|unfold write_quantized, tell_quantized; cbv zeta; apply says_seq; [apply says_32|];
    apply (says_pos _ _ (fun x _ => tl (wqa q x))); intros x].
  2:{ eapply says_eq; [|do 10 (apply says_seq; [sy|]); apply says_seq; [|apply says_seq; [|apply says_seq]]].
      2:{ instantiate (1 := fun _ => match pq_proj (qa_pq q) with Some pr => [wd (4 * lenN (concat (a2_rows pr))) "Cannot write projection matrix component"] | None => [] end).
          destruct (pq_proj (qa_pq q)); [apply says_matrix|apply says_ret]. }
      2:{ instantiate (1 := fun _ => [wd (4 * lenN (concat (concat (pq_cent (qa_pq q))))) "Cannot write subquantizer component"]).
          eapply says_eq; [|apply (says_loop _ _ _ (fun r => 4 * lenN (concat r)) (MWrite (txt "Cannot write subquantizer component"))); intros r _; apply says_matrix].
          intros p. cbv beta. f_equal. unfold wd. f_equal. generalize (pq_cent (qa_pq q)). intros l. induction l as [|r l IH]; [reflexivity|].
          cbn [map fold_right concat]. rewrite IH, concat_app, lenN_app. lia. }
      2:{ instantiate (1 := fun _ => match qa_norms q with Some ns => [wd (4 * lenN ns) "Cannot write norm vector component"] | None => [] end).
          destruct (qa_norms q); [apply says_floats|apply says_ret]. }
      2:{ instantiate (1 := fun _ => [wd (lenN (concat (a2_rows (qa_codes q)))) "Cannot write quantized embedding matrix component"]).
          eapply says_eq; [|apply (says_loop _ _ _ (fun r => 1 * lenN r) (MWrite (txt "Cannot write quantized embedding matrix component"))); intros r _].
          - intros p. cbv beta. rewrite sum_concat, N.mul_1_l. reflexivity.
          - eapply says_eq; [|apply (says_loop _ _ _ (fun _ => 1) (MWrite (txt "Cannot write quantized embedding matrix component"))); intros c _; apply says_bytes].
            intros p. cbv beta. rewrite sum_const. reflexivity. }
      intros p. cbv beta. cbn [app]. rewrite zeros_lenN. reflexivity. }
  intros p. cbv beta. cbn [fields_len field_len wd]. rewrite N.add_0_r. unfold wnorms, wnd, wqa. cbn [tl app]. rewrite pad_here. reflexivity.
Qed.
Lemma says_storage s : says (write_storage_wrap s) (tell_storage s) (wstorage s).
Proof.
  destruct s; cbn [write_storage_wrap tell_storage].
  all: match goal with
  | |- says (write_ndarray _) _ _ => apply says_ndarray
  | |- says (write_quantized _) _ _ => apply says_quantized
  | |- says (write_mmap_ndarray _) _ _ => apply (says_lift _ _ _ wnd); intros ? _; apply says_ndarray
  | |- says (write_mmap_quantized _) _ _ => apply (says_lift _ _ _ wqa); intros ? _; apply says_quantized
  end.
Qed.
Lemma says_file T (e : emb T) : says (write_file T e) (tell_file T e) (wfile e).
Proof.
  eapply says_eq; [|unfold write_file, write_embeddings, tell_file; apply says_seq; [apply says_header|apply says_seq; [|apply says_seq; [apply says_vocab|apply says_seq; [apply says_storage|]]]]].
  2:{ instantiate (1 := fun _ => match em_meta e with Some t => wmetadata (lenN (toml_print T t)) | None => [] end).
      destruct (em_meta e); [apply says_metadata|apply says_ret]. }
  2:{ instantiate (1 := fun p => match em_norms e with Some ns => wnorms (lenN ns) p | None => [] end).
      destruct (em_norms e); [apply says_norms|apply says_ret]. }
  intros p. cbv beta. unfold wfile. cbv zeta.
  replace (lenN (emb_chunks T vwrap_chunk swrap_chunk e)) with (lenN (expected_chunks e)).
  2:{ unfold expected_chunks, emb_chunks. destruct (em_meta e), (em_norms e); reflexivity. }
  rewrite !fields_len_app, !N.add_assoc, <- !app_assoc. reflexivity.
Qed.

(** What is shown when the device is full. *)
Lemma full_device T (e : emb T) base bytes : run_writer (write_file T e) base = Ok bytes ->
  tells_room (tell_file T e) base bytes (wfile e base).
Proof. apply says_run, says_file. Qed.
