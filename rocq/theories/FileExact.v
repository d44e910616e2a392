(** * What is read from a written file that is cut off or followed by other data. *)
From Verif Require Import Base BaseFacts Utf8 Stream StreamFacts F32 ChunkIO ChunkFacts Subword
  Vocab VocabFacts Storage StorageFacts Embeddings FileSpec FileFacts ReadFacts Grammar GrammarFacts FileExactSpec.
From Verif Require FileThms.
Local Open Scope N_scope.

Lemma short_bind_l {A B} (m : reader A) (k : A -> reader B) f : short m f -> short (bind m k) f.
Proof. intros H pos p q b E Hq. destruct (H pos p q b E Hq) as (e & s' & X). exists e, s'. unfold bind. rewrite X. reflexivity. Qed.

Lemma short_none {A} (m : reader A) : short m (fconst []).
Proof. intros pos p q b E Hq. symmetry in E. apply app_eq_nil in E as [_ E]. tauto. Qed.

(** ** Heads of chunks without their padding *)
Lemma short_nd_head a l : nd_ok a -> lenN l = 8 ->
  short read_storage_wrap (fconst (le_bytes 4 2 ++ l ++ le_bytes 8 (a2_nrows a) ++ le_bytes 4 (a2_cols a) ++ le_bytes 4 10)).
Proof.
  intros (W & Lr & Lc & D) L.
  assert (short read_ndarray (fconst (le_bytes 4 2 ++ l ++ le_bytes 8 (a2_nrows a) ++ le_bytes 4 (a2_cols a) ++ le_bytes 4 10))) as S.
  { unfold read_ndarray. eapply short_ext with (f := fseq (fconst (le_bytes 4 (chunk_num CNdArray))) (fseq (fun _ => l)
      (fseq (fconst (le_bytes 8 (a2_nrows a))) (fseq (fconst (le_bytes 4 (a2_cols a))) (fseq (fconst (le_bytes 4 10)) (fconst [])))))).
    { intros pos. unfold fseq, fconst. rewrite app_nil_r. reflexivity. }
    eapply short_bind; [apply reads_chunk_type; discriminate|apply short_chunk_type; discriminate|]. cbv beta.
    apply short_skip_u64; [intros; exact L|].
    eapply short_bind; [apply (reads_u64 (a2_nrows a)), Lr|apply short_u64|]. cbv beta.
    eapply short_bind; [apply (reads_u32 (a2_cols a)), Lc|apply short_u32|]. cbv beta.
    eapply short_bind; [apply (reads_data_type 10); reflexivity|apply (short_data_type 10); reflexivity|]. cbv beta.
    apply short_none. }
  unfold read_storage_wrap. intros pos p q brk E Hq. pose proof E as E0. unfold fconst in E.
  apply app_eq_app_cases in E as [(d & Hd & E1 & E2)|(d & E1 & E2)].
  - destruct (short_chunk_id CNdArray pos p d brk E1 Hd) as (er & s' & X).
    exists er, s'. unfold bind at 1, peek, peek_chunk_id. rewrite X. reflexivity.
  - destruct (S pos p q brk E0 Hq) as (er & s' & X). exists er, s'.
    unfold bind at 1, peek, peek_chunk_id. rewrite E1. pose proof (reads_chunk_id CNdArray ltac:(discriminate) pos d) as R.
    change (le_bytes 4 2) with (le_bytes 4 (chunk_num CNdArray)).
    unfold fconst in R. rewrite R. rewrite E1 in X. unfold bind. cbv beta iota.
    change (le_bytes 4 2) with (le_bytes 4 (chunk_num CNdArray)) in X. rewrite X. reflexivity.
Qed.
Lemma short_norms_head l : lenN l = 8 ->
  short read_norms (fconst (le_bytes 4 6 ++ l ++ le_bytes 8 0 ++ le_bytes 4 10)).
Proof.
  intros L. unfold read_norms. eapply short_ext with (f := fseq (fconst (le_bytes 4 (chunk_num CNdNorms))) (fseq (fun _ => l)
      (fseq (fconst (le_bytes 8 0)) (fseq (fconst (le_bytes 4 10)) (fconst []))))).
  { intros pos. unfold fseq, fconst. rewrite app_nil_r. reflexivity. }
  eapply short_bind; [apply reads_chunk_type; discriminate|apply short_chunk_type; discriminate|]. cbv beta.
  apply short_skip_u64; [intros; exact L|].
  eapply short_bind; [apply (reads_u64 0); reflexivity|apply short_u64|]. cbv beta.
  eapply short_bind; [apply (reads_data_type 10); reflexivity|apply (short_data_type 10); reflexivity|]. cbv beta.
  apply short_none.
Qed.

(** ** Truncated norms *)
Lemma norms_cut ns pos p q : lenN ns * 4 <= isize_max -> framed 6 (norms_body ns) pos = p ++ q -> q <> [] ->
  exists s', ok_opt read_norms (mkStream p pos) =
    (Ok (if (lenN ns =? 0) && (24 <=? lenN p) then Some [] else None), s').
Proof.
  intros L E Hq. destruct ns as [|n0 ns].
  - assert (lenN (le_bytes 8 (lenN (norms_body [] (pos + 12)))) = 8) as L8 by apply le_bytes_lenN.
    assert (framed 6 (norms_body []) pos = (le_bytes 4 6 ++ le_bytes 8 (lenN (norms_body [] (pos + 12))) ++ le_bytes 8 0 ++ le_bytes 4 10)
      ++ zeros (padding4 (pos + 24))) as EF.
    { unfold framed, norms_body at 2. replace (pos + 12 + 12) with (pos + 24) by lia. cbn [f32s_bytes]. rewrite <- !app_assoc. cbn [flat_map].
      rewrite app_nil_r. reflexivity. }
    rewrite EF in E. destruct (FileThms.prefix_cases _ _ _ _ E Hq) as [(Lp & q' & E' & Hq')|(Lp & p' & -> & E')].
    + destruct (short_norms_head _ L8 pos p q' false E' Hq') as (er & s' & X). exists s'. unfold ok_opt. rewrite X.
      rewrite !lenN_app, !le_bytes_lenN in Lp. destruct (N.leb_spec 24 (lenN p)); [lia|]. rewrite Bool.andb_false_r. reflexivity.
    + assert (norms_at (mkStream ((le_bytes 4 6 ++ le_bytes 8 (lenN (norms_body [] (pos + 12))) ++ le_bytes 8 0 ++ le_bytes 4 10) ++ p') pos) []
        (mkStream [] (pos + 24 + padding4 (pos + 24)))) as NA.
      { split; [exact L|]. exists (le_bytes 8 (lenN (norms_body [] (pos + 12)))). split; [exact L8|].
        exists (padding4 (pos + 24)). cbn [s_pos s_rest]. rewrite !lenN_app, !le_bytes_lenN.
        split; [apply padding4_range|]. split; [unfold padding4; lia|]. split; [cbn [floats_layout flat_map]; rewrite lenN_nil; lia|]. split; [reflexivity|].
        right. exists p'. split; [|repeat split]. apply (f_equal lenN) in E'. rewrite zeros_lenN, lenN_app in E'.
        destruct q; [congruence|]. rewrite lenN_cons in E'. lia. }
      apply norms_iff in NA. eexists. unfold ok_opt. rewrite NA. rewrite !lenN_app, !le_bytes_lenN.
      destruct (N.leb_spec 24 (N.of_nat 4 + (N.of_nat 8 + (N.of_nat 8 + N.of_nat 4)) + lenN p')); [|lia]. reflexivity.
  - destruct (norms_codec (n0 :: ns) L) as (_ & _ & NS). destruct (NS ltac:(discriminate) _ _ _ false E Hq) as (er & s' & X).
    exists s'. unfold ok_opt. rewrite X. rewrite lenN_cons. destruct (N.eqb_spec (1 + lenN ns) 0); [lia|].
    destruct (N.eqb_spec (N.succ (lenN ns)) 0); [lia|]. reflexivity.
Qed.

(** ** Truncated storages *)
Lemma nd_cut a pos p q : nd_ok a -> a2_nrows a * a2_cols a = 0 -> framed 2 (nd_body a) pos = p ++ q -> q <> [] ->
  (lenN p < 28 -> exists er s', read_storage_wrap (mkStream p pos) = (Err er, s')) /\
  (28 <= lenN p -> exists pos', read_storage_wrap (mkStream p pos) = (Ok (SNdArray a), mkStream [] pos')).
Proof.
  intros OK Z E Hq. set (l := le_bytes 8 (lenN (nd_body a (pos + 12)))) in *. assert (lenN l = 8) as L8 by apply le_bytes_lenN.
  pose proof OK as (W & _). pose proof (nd_data_len a W) as DL. rewrite Z in DL. apply lenN_0 in DL.
  assert (framed 2 (nd_body a) pos = (le_bytes 4 2 ++ l ++ le_bytes 8 (a2_nrows a) ++ le_bytes 4 (a2_cols a) ++ le_bytes 4 10)
      ++ zeros (padding4 (pos + 28))) as EF.
  { unfold framed. fold l. unfold nd_body. rewrite DL. replace (pos + 12 + 16) with (pos + 28) by lia. cbn [f32s_bytes]. rewrite <- !app_assoc. cbn [flat_map].
    rewrite app_nil_r. reflexivity. }
  rewrite EF in E. destruct (FileThms.prefix_cases _ _ _ _ E Hq) as [(Lp & q' & E' & Hq')|(Lp & p' & -> & E')].
  - rewrite !lenN_app, !le_bytes_lenN, L8 in Lp. split; [|lia]. intros _. apply (short_nd_head a l OK L8 pos p q' false E' Hq').
  - rewrite !lenN_app, !le_bytes_lenN, L8. split; [lia|]. intros _. eexists. apply storage_iff. apply (sa_nd _ l); [exact L8|exact OK|].
    exists (padding4 (pos + 28)). cbn [s_pos s_rest storage_floats]. rewrite !lenN_app, !le_bytes_lenN, L8, DL.
    split; [apply padding4_range|]. split; [unfold padding4; lia|]. split; [reflexivity|]. split; [reflexivity|]. right. exists p'.
    split; [|repeat split]. apply (f_equal lenN) in E'. rewrite zeros_lenN, lenN_app in E'. destruct q; [congruence|]. rewrite lenN_cons in E'. lia.
Qed.

(** ** Where reading norms stops *)
Lemma bind_Err_inv {S A B} (m : M S A) (k : A -> M S B) s e s' : bind m k s = (Err e, s') ->
  m s = (Err e, s') \/ exists a s1, m s = (Ok a, s1) /\ k a s1 = (Err e, s').
Proof. unfold bind. destruct (m s) as [[a|x|q] s1] eqn:E; intros H; [right; eauto|inv H; auto|inv H]. Qed.
Lemma exact_err n s e s' : read_exact n s = (Err e, s') -> s_rest s' = [] /\ lenN (s_rest s) < n.
Proof. unfold read_exact. destruct (N.leb_spec n (lenN (s_rest s))); intros H0; inv H0. auto. Qed.
Lemma u64_err s e s' : read_u64 s = (Err e, s') -> s_rest s' = [] /\ lenN (s_rest s) < 8.
Proof. unfold read_u64. intros H. apply bind_Err_inv in H as [H|(a & s1 & _ & H)]; [eapply exact_err; eauto|discriminate]. Qed.
Lemma dropN_short {A} n (l : list A) : lenN l <= n -> dropN n l = [].
Proof. intros H. apply lenN_0. rewrite lenN_dropN. lia. Qed.
Lemma u32_rest s r s' : read_u32 s = (r, s') -> s_rest s' = dropN 4 (s_rest s).
Proof.
  unfold read_u32, bind, read_exact, ret. destruct (N.leb_spec 4 (lenN (s_rest s))); intros H0; inv H0; [reflexivity|].
  cbn [s_rest]. symmetry. apply dropN_short. lia.
Qed.
Lemma data_type_err t s e s' : ensure_data_type t s = (Err e, s') -> s_rest s' = dropN 4 (s_rest s).
Proof.
  unfold ensure_data_type. intros H. apply bind_Err_inv in H as [H|(a & s1 & H1 & H)]; [eapply u32_rest; eauto|].
  apply u32_rest in H1. destruct (a =? t); unfold ret, fail in H; inv H. exact H1.
Qed.
Lemma chunk_type_err c s e s' : ensure_chunk_type c s = (Err e, s') -> s_rest s' = dropN 4 (s_rest s).
Proof.
  unfold ensure_chunk_type. intros H. apply bind_Err_inv in H as [H|(a & s1 & H1 & H)]; [eapply u32_rest; eauto|].
  apply u32_rest in H1. apply bind_Err_inv in H as [H|(d & s2 & H2 & H)].
  - unfold lift in H. inv H. exact H1.
  - unfold lift in H2. inv H2. destruct (chunk_eqb d c); unfold ret, fail in H; inv H. exact H1.
Qed.
Lemma takeN_after {s bs} n : n = lenN bs -> takeN n (s_rest s) = bs -> exists s', after s bs s'.
Proof.
  intros -> E. exists (mkBroken (dropN (lenN bs) (s_rest s)) (s_pos s + lenN bs) (s_broken s)). split; [|split; reflexivity]. cbn [s_rest].
  rewrite <- E at 1. symmetry. apply takeN_dropN.
Qed.

Lemma str_eqb_spec a b : Bool.reflect (a = b) (str_eqb a b).
Proof. destruct (str_eqb a b) eqn:E; constructor; [apply str_eqb_eq, E|apply str_eqb_neq, E]. Qed.
Lemma norms_err_rest tail pos e s' : read_norms (mkStream tail pos) = (Err e, s') -> s_rest s' = left_after_norms tail.
Proof.
  unfold read_norms. intros H. unfold left_after_norms.
  apply bind_Err_inv in H as [H|(u0 & s0 & X0 & H)].
  { destruct (str_eqb_spec (takeN 4 tail) (le_bytes 4 6)) as [E|NE]; [|eapply chunk_type_err in H; exact H].
    exfalso. destruct (takeN_after (s := mkStream tail pos) 4 (eq_sym (le_bytes_lenN 4 6)) E) as (s1 & A).
    apply (chunk_type_iff CNdNorms) in A as (u & A); [|discriminate]. congruence. }
  apply chunk_inv in X0. destruct X0 as [E0 P0]. cbn [s_rest] in E0. change (chunk_num CNdNorms) with 6 in E0.
  destruct (str_eqb_spec (takeN 4 tail) (le_bytes 4 6)) as [_|NE]; [|exfalso; apply NE; rewrite E0; apply takeN_app_l; reflexivity].
  assert (lenN tail = 4 + lenN (s_rest s0)) as LT by (rewrite E0, lenN_app, le_bytes_lenN; reflexivity).
  assert (forall r : list byte, lenN tail <= 24 -> [] = (if str_eqb (takeN 4 (dropN 20 tail)) (le_bytes 4 10) then [] else dropN 24 tail)) as SH.
  { intros _ L. destruct (str_eqb _ _); [reflexivity|]. symmetry. apply dropN_short. lia. }
  apply bind_Err_inv in H as [H|(l & s1 & X1 & H)].
  { apply u64_err in H as [-> L]. apply SH; [exact []|lia]. }
  apply skip_inv in X1 as (lb & Ll & [E1 P1]). assert (lenN (s_rest s0) = 8 + lenN (s_rest s1)) as L1 by (rewrite E1, lenN_app; lia).
  apply bind_Err_inv in H as [H|(n & s2 & X2 & H)].
  { apply u64_err in H as [-> L]. apply SH; [exact []|lia]. }
  apply u64_iff in X2 as [_ [E2 P2]].
  assert (dropN 20 tail = s_rest s2) as D2.
  { rewrite E0, E1, E2, !app_assoc. apply dropN_app_l. rewrite !lenN_app, !le_bytes_lenN, Ll. reflexivity. }
  assert (dropN 24 tail = dropN 4 (s_rest s2)) as D24 by (rewrite <- D2, dropN_dropN; reflexivity).
  apply bind_Err_inv in H as [H|(u3 & s3 & X3 & H)].
  { rewrite D2. destruct (str_eqb_spec (takeN 4 (s_rest s2)) (le_bytes 4 10)) as [E|NE]; [|eapply data_type_err in H; congruence].
    exfalso. destruct (takeN_after (s := s2) 4 (eq_sym (le_bytes_lenN 4 10)) E) as (s9 & A).
    apply (data_type_iff 10) in A as (u & A); [|reflexivity]. unfold f32_type_id in H. congruence. }
  apply type_inv in X3 as [E3 _]; [|reflexivity]. rewrite D2.
  destruct (str_eqb_spec (takeN 4 (s_rest s2)) (le_bytes 4 10)) as [_|NE]; [|exfalso; apply NE; rewrite E3; apply takeN_app_l; reflexivity].
  apply bind_Err_inv in H as [H|(pos4 & s4 & X4 & H)]; [discriminate|].
  apply bind_Err_inv in H as [H|(u5 & s5 & X5 & H)]; [discriminate|].
  apply bind_Err_inv in H as [H|(u6 & s6 & X6 & H)]; [unfold reserve in H; destruct (_ <=? _); discriminate|].
  unfold read_f32s in H. apply bind_Err_inv in H as [H|(bs & s7 & _ & H)]; [|discriminate]. apply exact_err in H as [-> _]. reflexivity.
Qed.

Lemma norms_panic_value s p s' : read_norms s = (Panic p, s') -> p = PCapacity.
Proof.
  unfold read_norms. intros H.
  apply bind_Panic_inv in H as [H|(u0 & s0 & X0 & H)]; [exfalso; eapply chunk_type_np; eauto|].
  apply bind_Panic_inv in H as [H|(l & s1 & X1 & H)]; [exfalso; eapply read_u64_np; eauto|].
  apply bind_Panic_inv in H as [H|(n & s2 & X2 & H)]; [exfalso; eapply read_u64_np; eauto|].
  apply bind_Panic_inv in H as [H|(u3 & s3 & X3 & H)]; [exfalso; eapply data_type_np; eauto|].
  apply bind_Panic_inv in H as [H|(pos & s4 & X4 & H)]; [discriminate|].
  apply bind_Panic_inv in H as [H|(u5 & s5 & X5 & H)]; [discriminate|].
  apply bind_Panic_inv in H as [H|(u6 & s6 & X6 & H)].
  - unfold reserve in H. destruct (_ <=? _); inv H. reflexivity.
  - exfalso. unfold read_f32s in H. apply bind_Panic_inv in H as [H|(bs & s7 & _ & H)]; [eapply read_exact_np; eauto|discriminate].
Qed.
(** ** Files followed by other data *)
Lemma file_followed pf T e s0 base : toml_law T -> emb_built pf T e s0 ->
  exists bytes, run_writer (write_file T e) base = Ok bytes /\
  forall tail, let whole := mkStream (bytes ++ tail) base in let rest := mkStream tail (base + lenN bytes) in
  match em_norms e with
  | Some ns => read_file pf T whole = (Ok (loaded e s0 (Some ns)), rest)
  | None =>
      (forall ns s', norms_at rest ns s' -> read_file pf T whole = (Ok (loaded e s0 (Some ns)), s')) /\
      (norms_too_long rest -> exists s', read_file pf T whole = (Panic PCapacity, s')) /\
      (~ (exists ns s', norms_at rest ns s') -> ~ norms_too_long rest ->
       exists s', read_file pf T whole = (Ok (loaded e s0 None), s') /\ s_rest s' = left_after_norms tail)
  end.
Proof.
  intros TL EB. destruct (file_facts pf T e s0 TL EB) as (vb & HE & _ & HR & _ & _).
  exists (file_layout T e s0 vb base). split; [apply emits_run, HE|]. intros tail whole rest. unfold whole, rest. clear whole rest.
  destruct (em_norms e) as [ns|] eqn:EN.
  - destruct (file_run pf T e s0 vb EB HR base tail) as (s' & E & P); [congruence|]. rewrite E, EN, P; [reflexivity|congruence].
  - assert (file_layout T e s0 vb base = main_layout T e s0 vb base) as EL.
    { unfold file_layout, fseq, norms_layout, norms_f. rewrite EN. unfold fconst. apply app_nil_r. }
    rewrite EL, HR. unfold bind, ok_opt. split; [|split].
    + intros ns s' H. apply norms_iff in H. rewrite H. reflexivity.
    + intros H. apply norms_panic_iff in H as (p & s' & H). pose proof (norms_panic_value _ _ _ H) as ->. rewrite H. eauto.
    + intros H1 H2. destruct (read_norms _) as [[ns|er|p] s'] eqn:E.
      * exfalso. apply H1. exists ns, s'. apply norms_iff. exact E.
      * exists s'. split; [reflexivity|]. eapply norms_err_rest; eauto.
      * exfalso. apply H2. apply norms_panic_iff. eauto.
Qed.

(** ** Truncated files *)
Lemma storage_cut e_storage s0 pos p q : storage_holds e_storage s0 -> framed (chunk_num (swrap_id e_storage)) (storage_body s0) pos = p ++ q -> q <> [] ->
  let pad := if storage_empty s0 then padding4 pos else 0 in
  (lenN p + pad < lenN (p ++ q) -> exists er s', read_storage_wrap (mkStream p pos) = (Err er, s')) /\
  (lenN (p ++ q) <= lenN p + pad -> exists pos', read_storage_wrap (mkStream p pos) = (Ok s0, mkStream [] pos')).
Proof.
  intros SH E Hq pad. assert (lenN (p ++ q) = lenN p + lenN q) as LA by apply lenN_app.
  assert (lenN q <> 0) as Lq by (destruct q; [congruence|rewrite lenN_cons; lia]).
  destruct (storage_empty s0) eqn:SE.
  - assert (exists a, s0 = SNdArray a /\ nd_ok a /\ chunk_num (swrap_id e_storage) = 2) as (a & -> & OK & ID).
    { destruct SH; cbn [storage_empty] in SE; try discriminate; eexists; eauto. }
    cbn [storage_empty] in SE. apply N.eqb_eq in SE. cbn [storage_body] in E. rewrite ID in E.
    destruct (nd_cut a pos p q OK SE E Hq) as [H1 H2]. unfold pad.
    assert (lenN (p ++ q) = 28 + padding4 pos) as LP.
    { rewrite <- E, framed_len. unfold nd_body. rewrite !lenN_app, !le_bytes_lenN, zeros_lenN, f32s_bytes_lenN, nd_data_len, SE by apply OK.
      replace (pos + 12 + 16) with (pos + 28) by lia. rewrite (padding4_add4 pos 28) by reflexivity. lia. }
    split; intros H; [apply H1; lia|apply H2; lia].
  - unfold pad. split; [intros _|lia]. destruct (storage_wrap_codec _ _ SH) as (_ & SS & _). refine (SS _ pos p q false E Hq).
    destruct s0; cbn [storage_nonempty storage_empty] in *; auto. apply N.eqb_neq. exact SE.
Qed.

Lemma file_cut pf T e s0 base bytes : toml_law T -> emb_built pf T e s0 ->
  run_writer (write_file T e) base = Ok bytes ->
  exists main norms, bytes = main ++ norms /\
  match em_norms e with
  | Some ns => exists pad, takeN 4 norms = le_bytes 4 6 /\ lenN norms = 24 + pad + 4 * lenN ns /\ 1 <= pad <= 4
  | None => norms = []
  end /\
  exists pad, (if storage_empty s0 then 1 <= pad <= 4 /\ exists data, main = data ++ zeros pad else pad = 0) /\
  forall p q, bytes = p ++ q -> q <> [] ->
    (lenN p + pad < lenN main -> exists err s', read_file pf T (mkStream p base) = (Err err, s')) /\
    (lenN main <= lenN p + pad -> exists s', read_file pf T (mkStream p base) =
       (Ok (loaded e s0 (match em_norms e with
                         | Some [] => if lenN main + 24 <=? lenN p then Some [] else None
                         | _ => None
                         end)), s')).
Proof.
  intros TL EB W. pose proof EB as [_ SH _ HN]. destruct (file_split pf T e s0 TL EB) as (pre & HE & HR & HS).
  rewrite (emits_run _ _ base HE) in W. inv W. set (stf := framed (chunk_num (swrap_id (em_storage e))) (storage_body s0)).
  set (b1 := base + lenN (pre base)). set (b2 := b1 + lenN (stf b1)).
  exists (pre base ++ stf b1), (norms_layout e b2). split; [|split].
  { unfold fseq. fold b1. fold stf. fold b2. rewrite app_assoc. reflexivity. }
  { unfold norms_layout, norms_f. destruct (em_norms e) as [ns|]; [|reflexivity].
    exists (padding4 (b2 + 12 + 12)). split; [|split; [|apply padding4_range]].
    - unfold framed. apply takeN_app_l. reflexivity.
    - rewrite framed_len. unfold norms_body. rewrite !lenN_app, !le_bytes_lenN, zeros_lenN, f32s_bytes_lenN. lia. }
  exists (if storage_empty s0 then padding4 b1 else 0). split.
  { destruct (storage_empty s0) eqn:SE; [|reflexivity]. split; [apply padding4_range|].
    assert (exists a, s0 = SNdArray a /\ nd_ok a /\ chunk_num (swrap_id (em_storage e)) = 2) as (a & -> & OK & ID).
    { clear - SH SE. destruct SH; cbn [storage_empty] in SE; try discriminate; eexists; eauto. }
    cbn [storage_empty] in SE. apply N.eqb_eq in SE. unfold stf. rewrite ID. cbn [storage_body]. unfold framed.
    pose proof OK as (Wf & _). pose proof (nd_data_len a Wf) as DL. rewrite SE in DL. apply lenN_0 in DL.
    set (l := le_bytes 8 _). unfold nd_body. rewrite DL.
    exists (pre base ++ le_bytes 4 2 ++ l ++ le_bytes 8 (a2_nrows a) ++ le_bytes 4 (a2_cols a) ++ le_bytes 4 10).
    rewrite <- !app_assoc. replace (b1 + 12 + 16) with (b1 + 28) by lia. rewrite (padding4_add4 b1 28) by reflexivity.
    cbn [f32s_bytes flat_map]. rewrite app_nil_r. reflexivity. }
  intros p q E Hq. unfold fseq in E. fold b1 stf b2 in E.
  destruct (FileThms.prefix_cases _ _ _ _ E Hq) as [(L & q' & E' & Hq')|(L & p' & -> & E')].
  - (* before the storage *)
    assert (lenN p + (if storage_empty s0 then padding4 b1 else 0) < lenN (pre base ++ stf b1)) as LT.
    { rewrite lenN_app. assert (12 <= lenN (stf b1)) by (unfold stf; rewrite framed_len; lia).
      pose proof (padding4_range b1). destruct (storage_empty s0); lia. }
    split; [|lia]. intros _. apply (HS base p q' false E' Hq').
  - rewrite HR. fold b1. rewrite !lenN_app.
    destruct (FileThms.prefix_cases _ _ _ _ E' Hq) as [(L2 & q' & E2 & Hq')|(L2 & p2 & -> & E2)].
    + (* in the storage *)
      destruct (storage_cut _ _ b1 p' q' SH E2 Hq') as [C1 C2]. rewrite <- E2 in C1, C2. fold stf in C1, C2. split; intros LT.
      * destruct C1 as (er & s' & X); [lia|]. exists er, s'. unfold bind. rewrite X. reflexivity.
      * destruct C2 as (pos' & X); [lia|].
        destruct (not_norms_err [] pos' FileThms.not_norms_nil) as (er & s9 & Y). exists s9. unfold bind. rewrite X. unfold ok_opt. rewrite Y. unfold ret, loaded. do 3 f_equal.
        destruct (em_norms e) as [[|]|]; try reflexivity. destruct (N.leb_spec (lenN (pre base) + lenN (stf b1) + 24) (lenN (pre base) + lenN p')); [lia|reflexivity].
    + (* in the norms *)
      split; [lia|]. intros _. destruct (storage_wrap_codec _ _ SH) as (CS & _ & _). pose proof (cc_reads _ _ _ _ _ _ CS b1 p2 false) as R. fold stf in R.
      fold b2 in R. unfold bind. rewrite R. unfold norms_layout, norms_f in E2. destruct (em_norms e) as [ns|] eqn:EN.
      * destruct (norms_cut ns b2 p2 q (HN ns eq_refl) E2 Hq) as (s' & X). exists s'. rewrite X. unfold ret, loaded. do 3 f_equal.
        destruct ns; [|rewrite lenN_cons; destruct (N.eqb_spec (1 + lenN ns) 0); [lia|]; destruct (N.eqb_spec (N.succ (lenN ns)) 0); [lia|reflexivity]].
        cbn [andb]. change (lenN [] =? 0) with true. cbn [andb]. rewrite lenN_app.
        destruct (N.leb_spec 24 (lenN p2)), (N.leb_spec (lenN (pre base) + lenN (stf b1) + 24) (lenN (pre base) + (lenN (stf b1) + lenN p2))); try lia; reflexivity.
      * exfalso. unfold fconst in E2. symmetry in E2. apply app_eq_nil in E2 as [_ ->]. congruence.
Qed.

(** ** What can be loaded *)
Lemma loadable pf T e : toml_law T -> (forall t, em_meta e = Some t -> lenN (toml_print T t) <= isize_max) ->
  (exists s s', read_file pf T s = (Ok e, s')) <-> emb_built pf T e (em_storage e).
Proof.
  intros TL HM. split.
  - intros (s & s' & H). eapply read_file_built; eauto.
  - intros EB. destruct (FileThms.file_round_trip pf T e (em_storage e) 0 TL EB) as (bytes & _ & HR).
    destruct (HR [] (fun _ => FileThms.not_norms_nil)) as (s' & E). rewrite FileThms.loaded_self in E. eauto.
Qed.

(** ** Writing what was read *)
Lemma storage_rewrite s s0 : storage_holds s s0 -> swrap_id s = swrap_id s0 /\ forall k, write_storage_wrap s k = write_storage_wrap s0 k.
Proof.
  destruct 1 as [a H|q H|m a E H|m q E H]; split; try reflexivity; intros k; cbn [write_storage_wrap].
  - unfold write_mmap_ndarray, bind, lift. rewrite E. reflexivity.
  - unfold write_mmap_quantized, bind, lift. rewrite E. reflexivity.
Qed.
Lemma file_rewrite pf T e s0 : toml_law T -> emb_built pf T e s0 ->
  forall k, write_file T (loaded e s0 (em_norms e)) k = write_file T e k.
Proof.
  intros TL [_ SH _ _] k. destruct (storage_rewrite _ _ SH) as [ID W]. unfold write_file, write_embeddings, loaded, emb_chunks.
  cbn [em_meta em_norms em_vocab em_storage ck_id swrap_chunk ck_write]. rewrite <- ID.
  apply bind_ext; [reflexivity|]. intros _ k1 _. apply bind_ext; [reflexivity|]. intros _ k2 _. apply bind_ext; [reflexivity|]. intros _ k3 _.
  apply bind_ext; [symmetry; apply W|reflexivity].
Qed.
(** A file that was written is written again byte for byte. *)
Lemma file_same_bytes pf T e s0 base bytes : toml_law T -> emb_built pf T e s0 ->
  run_writer (write_file T e) base = Ok bytes ->
  exists e' s', read_file pf T (mkStream bytes base) = (Ok e', s') /\ run_writer (write_file T e') base = Ok bytes.
Proof.
  intros TL EB W. destruct (FileThms.file_round_trip pf T e s0 base TL EB) as (bytes' & W' & HR). rewrite W in W'. inv W'.
  destruct (HR [] (fun _ => FileThms.not_norms_nil)) as (s' & E). rewrite app_nil_r in E. exists (loaded e s0 (em_norms e)), s'.
  split; [exact E|]. unfold run_writer in *. rewrite (file_rewrite pf T e s0 TL EB). exact W.
Qed.
