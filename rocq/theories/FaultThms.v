(** * Reading from a device that fails after some of the data. *)
From Verif Require Import Base BaseFacts Utf8 Stream StreamFacts F32 ChunkIO ChunkFacts Subword Vocab Storage Embeddings TextIO TextSpec TextFacts FastText BrokenFacts FloretThms
  BlindFacts FileSpec FileExactSpec FileExact.
Local Open Scope N_scope.

(** The result is a read error, or that on any longer data. *)
Definition faithful {A} (m : reader A) : Prop := forall p pos,
  match m (mkBroken p pos true) with
  | (Ok a, s') => s_broken s' = true /\ forall q b, m (mkBroken (p ++ q) pos b) = (Ok a, mkBroken (s_rest s' ++ q) (s_pos s') b)
  | (Err er, _) => er = ERead \/ forall q b, fst (m (mkBroken (p ++ q) pos b)) = Err er
  | (Panic w, _) => forall q b, fst (m (mkBroken (p ++ q) pos b)) = Panic w
  end.

Lemma faithful_pure {A} (r : res A) : faithful (lift r).
Proof. intros p pos. unfold lift. destruct r as [a|er|w]; cbn [fst s_rest s_pos s_broken]; auto. Qed.
Lemma faithful_ret {A} (a : A) : faithful (ret a). Proof. apply (faithful_pure (Ok a)). Qed.
Lemma faithful_fail {A} e : faithful (A := A) (fail e). Proof. apply (faithful_pure (Err e)). Qed.
Lemma faithful_reserve n size : faithful (reserve n size).
Proof. intros p pos. unfold reserve. destruct (_ <=? _); cbn [fst s_rest s_pos s_broken]; auto. Qed.
Lemma faithful_alloc shape size : faithful (alloc_zeros shape size).
Proof. intros p pos. unfold alloc_zeros. destruct (_ && _)%bool; cbn [fst s_rest s_pos s_broken]; auto. Qed.
Lemma faithful_exact n : faithful (read_exact n).
Proof.
  intros p pos. pose proof (complete_exact n p pos) as C. unfold read_exact at 1. unfold read_exact at 1 in C. cbn [s_rest s_pos s_broken] in *.
  destruct (_ <=? _); [apply C; reflexivity|auto].
Qed.
Lemma faithful_until d : faithful (read_until d).
Proof.
  intros p pos. pose proof (complete_until d p pos) as C. destruct (byte_in_dec d p) as [I|I].
  - destruct (first_split d p I) as (f & r & -> & NI). rewrite read_until_hit in * by exact NI. apply C. reflexivity.
  - rewrite read_until_broken by exact I. auto.
Qed.
Lemma faithful_bind {A B} (m : reader A) (k : A -> reader B) : faithful m -> (forall a, faithful (k a)) -> faithful (bind m k).
Proof.
  intros H K p pos. unfold bind. specialize (H p pos). destruct (m (mkBroken p pos true)) as [[a|er|w] s1].
  - destruct H as [BR H]. destruct s1 as [p1 pos1 b1]. cbn [s_rest s_pos s_broken] in *. subst b1. specialize (K a p1 pos1).
    destruct (k a (mkBroken p1 pos1 true)) as [[x|er|w] s2].
    + destruct K as [BR K]. split; [exact BR|]. intros q b. rewrite H. apply K.
    + destruct K as [->|K]; [auto|]. right. intros q b. rewrite H. apply K.
    + intros q b. rewrite H. apply K.
  - destruct H as [->|H]; [auto|]. right. intros q b. specialize (H q b). destruct (m (mkBroken (p ++ q) pos b)) as [r s']. cbn [fst] in H. subst r. reflexivity.
  - intros q b. specialize (H q b). destruct (m (mkBroken (p ++ q) pos b)) as [r s']. cbn [fst] in H. subst r. reflexivity.
Qed.
Lemma faithful_repeat {A} n (m : reader A) : faithful m -> faithful (repeat_m n m).
Proof.
  intros H p pos. assert (faithful (repeat_nat (N.to_nat n) m)) as K.
  { induction (N.to_nat n) as [|k IH]; cbn [repeat_nat]; [apply faithful_ret|].
    apply faithful_bind; [exact H|]. intros a. apply faithful_bind; [exact IH|]. intros l. apply faithful_ret. }
  specialize (K p pos). rewrite repeat_m_nat. destruct (repeat_nat (N.to_nat n) m (mkBroken p pos true)) as [[a|er|w] s1].
  - destruct K as [BR K]. split; [exact BR|]. intros q b. rewrite repeat_m_nat. apply K.
  - destruct K as [->|K]; [auto|]. right. intros q b. rewrite repeat_m_nat. apply K.
  - intros q b. rewrite repeat_m_nat. apply K.
Qed.
Lemma faithful_u8 : faithful read_u8. Proof. apply faithful_bind; [apply faithful_exact|]. intros. apply faithful_ret. Qed.
Lemma faithful_u32 : faithful read_u32. Proof. apply faithful_bind; [apply faithful_exact|]. intros. apply faithful_ret. Qed.
Lemma faithful_u64 : faithful read_u64. Proof. apply faithful_bind; [apply faithful_exact|]. intros. apply faithful_ret. Qed.

Ltac faithful_step := first
  [ apply faithful_bind; [|intros ?] | apply faithful_repeat
  | apply faithful_u32 | apply faithful_u64 | apply faithful_u8 | apply faithful_exact | apply faithful_until | apply faithful_reserve | apply faithful_alloc
  | apply faithful_pure | apply faithful_fail | apply faithful_ret
  | match goal with |- faithful (match ?x with _ => _ end) => destruct x end
  | assumption ].
Ltac faithfuls := repeat (cbv zeta; faithful_step).

Lemma faithful_string d lossy : faithful (read_string d lossy). Proof. unfold read_string. faithfuls. Qed.
Lemma faithful_number d : faithful (read_number d). Proof. unfold read_number. apply faithful_bind; [apply faithful_string|intros ?]. faithfuls. Qed.
Lemma faithful_f32s n : faithful (read_f32s n). Proof. unfold read_f32s. faithfuls. Qed.
Lemma faithful_entry d lossy : faithful (read_w2v_entry d lossy).
Proof. unfold read_w2v_entry. apply faithful_bind; [apply faithful_string|intros ?]. apply faithful_bind; [apply faithful_f32s|intros ?]. faithfuls. Qed.
Lemma faithful_word2vec_raw pf {Md} lossy : faithful (read_word2vec_raw (Md := Md) pf lossy).
Proof.
  unfold read_word2vec_raw. apply faithful_bind; [apply faithful_number|intros n]. apply faithful_bind; [apply faithful_number|intros d].
  faithfuls; apply faithful_entry.
Qed.
Lemma faithful_word2vec pf {Md} lossy : faithful (read_word2vec (Md := Md) pf lossy).
Proof. unfold read_word2vec. apply faithful_bind; [apply faithful_word2vec_raw|]. intros. faithfuls. Qed.

Section Text.
  Context (P : ftext_ops) (pf : profile).
  (** The fuel of the loops is enough for all data. *)
  Lemma text_lines_faithful lossy : forall fuel p pos, (length p < fuel)%nat ->
    exists er s', text_lines P fuel lossy (mkBroken p pos true) = (Err er, s') /\
    (er = ERead \/ forall q b fuel', (length (p ++ q) < fuel')%nat -> fst (text_lines P fuel' lossy (mkBroken (p ++ q) pos b)) = Err er).
  Proof.
    induction fuel as [|fuel IH]; intros p pos L; [lia|]. cbn [text_lines]. unfold bind at 1. destruct (byte_in_dec x0a p) as [I|I].
    - destruct (first_split x0a p I) as (l & r & -> & NI). rewrite read_until_hit by exact NI.
      destruct (l ++ [x0a]) as [|b t] eqn:EB; [destruct l; discriminate|]. rewrite <- EB, strip_nl_hit.
      unfold bind at 1, lift. destruct (text_line_cases P lossy l) as [(it & EI)| EI]; rewrite EI.
      + destruct (IH r (pos + lenN (l ++ [x0a]))) as (er & s' & E & C); [rewrite app_length in L; cbn [length] in L; lia|].
        unfold bind. rewrite E. do 2 eexists. split; [reflexivity|]. destruct C as [->|C]; [auto|]. right. intros q b' [|fuel'] L'; [lia|]. cbn [text_lines]. unfold bind at 1.
        rewrite <- app_assoc. cbn [app]. rewrite read_until_hit by exact NI. rewrite EB. rewrite <- EB at 1. rewrite strip_nl_hit. unfold bind, lift. rewrite EI.
        specialize (C q b' fuel'). rewrite <- EB. destruct (text_lines P fuel' lossy (mkBroken (r ++ q) _ b')) as [x s2]. cbn [fst] in C.
        rewrite C; [reflexivity|]. rewrite <- app_assoc, app_length in L'. cbn [app length] in L'. lia.
      + do 2 eexists. split; [reflexivity|]. right. intros q b' [|fuel'] L'; [lia|]. cbn [text_lines]. unfold bind at 1.
        rewrite <- app_assoc. cbn [app]. rewrite read_until_hit by exact NI. rewrite EB. rewrite <- EB at 1. rewrite strip_nl_hit. unfold bind, lift. rewrite EI. reflexivity.
    - rewrite read_until_broken by exact I. eauto.
  Qed.
  Lemma faithful_lines lossy : faithful (read_lines P lossy).
  Proof.
    intros p pos. unfold read_lines at 1. cbn [s_rest]. destruct (text_lines_faithful lossy (Datatypes.S (length p)) p pos ltac:(lia)) as (er & s' & -> & C).
    destruct C as [->|C]; [auto|]. right. intros q b. unfold read_lines. cbn [s_rest]. apply C. lia.
  Qed.
  Lemma faithful_embeds {Md} shape lossy : faithful (read_embeds (Md := Md) P pf shape lossy).
  Proof. unfold read_embeds. repeat first [apply faithful_bind; [apply faithful_lines|intros ?] | faithful_step]. Qed.
  Lemma faithful_text_raw {Md} lossy : faithful (read_text_raw (Md := Md) P pf lossy). Proof. apply faithful_embeds. Qed.
  Lemma faithful_text {Md} lossy : faithful (read_text (Md := Md) P pf lossy). Proof. apply faithful_bind; [apply faithful_text_raw|]. intros. faithfuls. Qed.
  Lemma faithful_text_dims_raw {Md} lossy : faithful (read_text_dims_raw (Md := Md) P pf lossy).
  Proof. unfold read_text_dims_raw. apply faithful_bind; [apply faithful_number|intros n]. apply faithful_bind; [apply faithful_number|intros d]. apply faithful_embeds. Qed.
  Lemma faithful_text_dims {Md} lossy : faithful (read_text_dims (Md := Md) P pf lossy). Proof. apply faithful_bind; [apply faithful_text_dims_raw|]. intros. faithfuls. Qed.

  Lemma floret_lines_faithful dims : forall fuel p pos, (length p < fuel)%nat ->
    exists er s', floret_lines P fuel dims (mkBroken p pos true) = (Err er, s') /\
    (er = ERead \/ forall q b fuel', (length (p ++ q) < fuel')%nat -> fst (floret_lines P fuel' dims (mkBroken (p ++ q) pos b)) = Err er).
  Proof.
    induction fuel as [|fuel IH]; intros p pos L; [lia|]. cbn [floret_lines]. unfold bind at 1. destruct (byte_in_dec x0a p) as [I|I].
    - destruct (first_split x0a p I) as (l & r & -> & NI). rewrite read_until_hit by exact NI.
      destruct (l ++ [x0a]) as [|b t] eqn:EB; [destruct l; discriminate|].
      unfold bind at 1, lift. destruct (floret_line_cases P dims (strip_crlf (b :: t))) as [(it & EI)|EI].
      + rewrite EI. destruct (IH r (pos + lenN (b :: t))) as (er & s' & E & C); [rewrite app_length in L; cbn [length] in L; lia|].
        unfold bind. rewrite E. do 2 eexists. split; [reflexivity|]. destruct C as [->|C]; [auto|]. right. intros q b' [|fuel'] L'; [lia|]. cbn [floret_lines]. unfold bind at 1.
        rewrite <- app_assoc. cbn [app]. rewrite read_until_hit by exact NI. rewrite EB. unfold bind, lift. rewrite EI.
        specialize (C q b' fuel'). destruct (floret_lines P fuel' dims (mkBroken (r ++ q) _ b')) as [x s2]. cbn [fst] in C.
        rewrite C; [reflexivity|]. rewrite <- app_assoc, app_length in L'. cbn [app length] in L'. lia.
      + assert (exists er, floret_line P dims (strip_crlf (b :: t)) = Err er) as (er & EE) by (destruct EI; eauto). rewrite EE.
        do 2 eexists. split; [reflexivity|]. right. intros q b' [|fuel'] L'; [lia|]. cbn [floret_lines]. unfold bind at 1.
        rewrite <- app_assoc. cbn [app]. rewrite read_until_hit by exact NI. rewrite EB. unfold bind, lift. rewrite EE. reflexivity.
    - rewrite read_until_broken by exact I. eauto.
  Qed.
  Lemma faithful_floret_lines dims : faithful (read_floret_lines P dims).
  Proof.
    intros p pos. unfold read_floret_lines at 1. cbn [s_rest]. destruct (floret_lines_faithful dims (Datatypes.S (length p)) p pos ltac:(lia)) as (er & s' & -> & C).
    destruct C as [->|C]; [auto|]. right. intros q b. unfold read_floret_lines. cbn [s_rest]. apply C. lia.
  Qed.
  Lemma faithful_floret {Md} : faithful (read_floret_text (Md := Md) P pf).
  Proof.
    unfold read_floret_text.
    repeat (cbv zeta; first [apply faithful_bind; [first [apply faithful_number | apply faithful_string | apply faithful_floret_lines]|intros ?] | faithful_step]).
  Qed.
End Text.

Section Ft.
  Context (pf : profile) (T : toml_ops) (config_table : ft_config -> option (toml_table T)).
  Lemma faithful_config : faithful read_config. Proof. unfold read_config, read_loss, read_model. faithfuls. Qed.
  Lemma faithful_ft_entry lossy : faithful (read_ft_entry lossy). Proof. unfold read_ft_entry. apply faithful_bind; [apply faithful_string|intros ?]. faithfuls. Qed.
  Lemma faithful_ft_vocab c lossy : faithful (read_ft_vocab pf c lossy). Proof. unfold read_ft_vocab. faithfuls. all: apply faithful_ft_entry. Qed.
  Lemma faithful_ft_matrix : faithful read_ft_matrix. Proof. unfold read_ft_matrix. faithfuls. Qed.
  Lemma faithful_fasttext lossy : faithful (read_fasttext pf T config_table lossy).
  Proof.
    unfold read_fasttext. repeat (cbv zeta; first [apply faithful_bind; [first [apply faithful_config | apply faithful_ft_vocab | apply faithful_ft_matrix | apply faithful_u32 | apply faithful_u8 | apply faithful_pure]|intros ?] | faithful_step]).
  Qed.
End Ft.

Lemma faithful_result {A} (m : reader A) p q pos : faithful m ->
  fst (m (mkBroken p pos true)) = Err ERead \/ fst (m (mkBroken p pos true)) = fst (m (mkStream (p ++ q) pos)).
Proof.
  intros H. specialize (H p pos). destruct (m (mkBroken p pos true)) as [[a|er|w] s1]; cbn [fst].
  - destruct H as [_ H]. rewrite H. auto.
  - destruct H as [->|H]; [auto|]. rewrite H. auto.
  - rewrite H. auto.
Qed.

(** ** C98: other formats *)
Lemma text_fault P pf {Md} (raw dims lossy : bool) p q pos :
  let m := if dims then (if raw then read_text_dims_raw (Md := Md) P pf lossy else read_text_dims P pf lossy)
           else (if raw then read_text_raw P pf lossy else read_text P pf lossy) in
  (fst (m (mkBroken p pos true)) = Err ERead \/ fst (m (mkBroken p pos true)) = fst (m (mkStream (p ++ q) pos))) /\
  forall e, fst (m (mkBroken p pos true)) <> Ok e.
Proof.
  intros m. split.
  - apply faithful_result. unfold m. destruct dims, raw; [apply faithful_text_dims_raw|apply faithful_text_dims|apply faithful_text_raw|apply faithful_text].
  - intros e. assert (never_ok m) as H by (unfold m; destruct dims, raw; [apply never_text_dims_raw|apply never_text_dims|apply never_text_raw|apply never_text]).
    specialize (H p pos e). destruct (m (mkBroken p pos true)) as [r s']. cbn [fst]. intros ->. eapply H. reflexivity.
Qed.
Lemma word2vec_fault pf {Md} (raw lossy : bool) p q pos :
  let m := if raw then read_word2vec_raw (Md := Md) pf lossy else read_word2vec pf lossy in
  fst (m (mkBroken p pos true)) = Err ERead \/ fst (m (mkBroken p pos true)) = fst (m (mkStream (p ++ q) pos)).
Proof. intros m. apply faithful_result. unfold m. destruct raw; [apply faithful_word2vec_raw|apply faithful_word2vec]. Qed.
Lemma floret_fault P pf {Md} p q pos :
  let m := read_floret_text (Md := Md) P pf in
  (fst (m (mkBroken p pos true)) = Err ERead \/ fst (m (mkBroken p pos true)) = fst (m (mkStream (p ++ q) pos))) /\
  forall e, fst (m (mkBroken p pos true)) <> Ok e.
Proof.
  intros m. split; [apply faithful_result, faithful_floret|]. intros e. pose proof (never_floret P pf (Md := Md) p pos e) as H. unfold m.
  destruct (read_floret_text P pf (mkBroken p pos true)) as [r s']. cbn [fst]. intros ->. eapply H. reflexivity.
Qed.
Lemma fasttext_fault pf T config_table (lossy : bool) p q pos :
  let m := read_fasttext pf T config_table lossy in
  fst (m (mkBroken p pos true)) = Err ERead \/ fst (m (mkBroken p pos true)) = fst (m (mkStream (p ++ q) pos)).
Proof. intros m. apply faithful_result, faithful_fasttext. Qed.

(** ** C99: finalfusion files *)
Lemma blind_file pf T : blind (read_file pf T).
Proof. apply blind_embeddings; [apply blind_vocab_wrap|apply blind_storage_wrap]. Qed.
Lemma blind_result {A} (m : reader A) p pos : blind m -> fst (m (mkBroken p pos true)) = fst (m (mkStream p pos)).
Proof. intros H. specialize (H (mkStream p pos) true). change (set_broken true (mkStream p pos)) with (mkBroken p pos true) in H. rewrite H. reflexivity. Qed.
Lemma file_fault pf T e s0 base bytes : toml_law T -> emb_built pf T e s0 ->
  run_writer (write_file T e) base = Ok bytes ->
  exists main norms, bytes = main ++ norms /\ (em_norms e = None <-> norms = []) /\
  exists pad, (if storage_empty s0 then 1 <= pad <= 4 else pad = 0) /\
  forall p q, bytes = p ++ q ->
    (lenN p + pad < lenN main -> exists er, fst (read_file pf T (mkBroken p base true)) = Err er) /\
    (lenN main <= lenN p + pad -> exists ns, fst (read_file pf T (mkBroken p base true)) = Ok (loaded e s0 ns) /\
       (ns = em_norms e \/ ns = None) /\ (q = [] -> ns = em_norms e) /\ (q <> [] -> em_norms e <> Some [] -> ns = None)).
Proof.
  intros TL EB W. pose proof (file_cut pf T e s0 base bytes TL EB W) as (main & norms & E & N0 & pad & HP & C).
  exists main, norms. split; [exact E|]. split.
  { destruct (em_norms e) as [ns|]; [|tauto]. destruct N0 as (pd & K & L & _). split; [discriminate|]. intros ->. rewrite lenN_nil in L. lia. }
  exists pad. split; [destruct (storage_empty s0); tauto|]. intros p q Epq.
  rewrite (blind_result (read_file pf T) p base (blind_file pf T)). destruct q as [|b q].
  - rewrite app_nil_r in Epq. subst p. destruct (FileThms.file_round_trip pf T e s0 base TL EB) as (bytes' & W' & R). assert (bytes' = bytes) as -> by congruence.
    destruct (R [] (fun _ => FileThms.not_norms_nil)) as (s' & X). rewrite app_nil_r in X. rewrite X. cbn [fst]. split.
    + intros L. exfalso. rewrite E, lenN_app in L. pose proof (N.le_0_l (lenN norms)). lia.
    + intros _. exists (em_norms e). split; [reflexivity|]. split; [auto|]. split; [auto|]. intros K. destruct K. reflexivity.
  - destruct (C p (b :: q) Epq ltac:(discriminate)) as [C1 C2]. split.
    + intros L. destruct (C1 L) as (er & s' & X). rewrite X. exists er. reflexivity.
    + intros L. destruct (C2 L) as (s' & X). rewrite X. cbn [fst]. eexists. split; [reflexivity|]. split; [|split; [discriminate|]].
      * destruct (em_norms e) as [[|n ns]|]; auto. destruct (_ <=? _); auto.
      * intros _ K. destruct (em_norms e) as [[|n ns]|]; congruence.
Qed.
