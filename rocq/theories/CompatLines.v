(** * What the errors say about lines and sizes of text files. *)
From Coq Require Import Strings.String.
From Verif Require Import Base BaseFacts Utf8 Utf8Facts Stream StreamFacts F32 ChunkIO ChunkFacts Subword Vocab VocabFacts Storage
  Embeddings TextIO FileSpec VocabSpec EmbSpec TextSpec TextFacts TextThms FloretThms Messages MessageSpec MessageThms MessageWrong
  CompatMessages CompatErasure CompatTexts StorageFacts.
Local Open Scope N_scope.

Definition component_text (p : str) : str :=
  txt "Invalid file format Cannot parse vector component '" ++ p ++ txt "': invalid float literal".
(** What is wrong with a line [l], and what the text says about it. *)
Definition line_error (P : ftext_ops) (lossy : bool) (l : list byte) (e : emsg) : Prop :=
  (lossy = false /\ utf8_valid l = false /\ points_at (txt "Token contains invalid UTF-8: ") l e) \/
  (exists s, decodes lossy l s /\ has_fields s [] /\ display e = txt "Invalid file format Spurious empty line") \/
  (exists s w ps xs p qs, decodes lossy l s /\ has_fields s (w :: ps ++ p :: qs) /\
     Forall2 (fun p x => ft_parse P p = Some x) ps xs /\ ft_parse P p = None /\ display e = component_text p).
(** The same for floret, which expects [dims] components. *)
Definition row_error (P : ftext_ops) (dims : N) (l : list byte) (e : emsg) : Prop :=
  (utf8_valid l = false /\ display e = txt "Cannot read line") \/
  (exists w ps xs p qs, utf8_valid l = true /\ has_fields l (w :: ps ++ p :: qs) /\
     Forall2 (fun p x => ft_parse P p = Some x) ps xs /\ ft_parse P p = None /\ display e = component_text p) \/
  (exists fs xs, utf8_valid l = true /\ has_fields l fs /\ Forall2 (fun p x => ft_parse P p = Some x) (tl fs) xs /\ lenN xs <> dims /\
     display e = txt "Invalid file format Incorrect number of embedding components, expected: " ++ dec_print dims
                 ++ txt ", got: " ++ dec_print (lenN xs)).

Lemma dbind_ok {A B} (d : D A) (k : A -> D B) s a s' : d s = (MOk a, s') -> dbind d k s = k a s'.
Proof. unfold dbind. intros ->. reflexivity. Qed.
Lemma dbind_err {A B} (d : D A) (k : A -> D B) s e s' : d s = (MErr e, s') -> dbind d k s = (MErr e, s').
Proof. unfold dbind. intros ->. reflexivity. Qed.

Section Lines.
  Context (P : ftext_ops).
  Lemma floats_bad ps s : (forall p, In p ps -> p <> []) -> (exists xs, Forall2 (fun p x => ft_parse P p = Some x) ps xs /\ parse_floats_t P ps s = (MOk xs, s)) \/
    (exists qs xs p rs e, ps = qs ++ p :: rs /\ Forall2 (fun p x => ft_parse P p = Some x) qs xs /\ ft_parse P p = None /\
     parse_floats_t P ps s = (MErr e, s) /\ display e = component_text p).
  Proof.
    induction ps as [|p ps IH]; intros NE; [left; exists []; split; [constructor|reflexivity]|]. cbn [parse_floats_t].
    destruct (ft_parse P p) as [x|] eqn:E.
    - destruct IH as [(xs & F & R)|(qs & xs & q & rs & e & -> & F & N1 & R & T)]; [intros q Q; apply NE; right; exact Q| |].
      + left. exists (x :: xs). split; [constructor; auto|]. rewrite (dbind_ok _ _ _ _ _ R). reflexivity.
      + right. exists (p :: qs), (x :: xs), q, rs, e. repeat split; auto. rewrite (dbind_err _ _ _ _ _ R). reflexivity.
    - right. exists [], [], p, ps. eexists. split; [reflexivity|]. split; [constructor|]. split; [exact E|]. split; [reflexivity|].
      destruct p as [|b p]; [destruct (NE []); [left|]; reflexivity|reflexivity].
  Qed.
  Lemma fields_ne s fs : has_fields s fs -> forall p, In p fs -> p <> [].
  Proof. induction 1 as [s H|pre f r fs H1 H2 H3 H4 H5 IH]; intros p I; [destruct I|]. destruct I as [<-|I]; auto. Qed.

  Lemma line_bad lossy l s : (forall it, ~ line_item P lossy l it) ->
    exists e, text_line_t P lossy l s = (MErr e, s) /\ line_error P lossy l e.
  Proof.
    intros NI. unfold text_line_t. assert ((exists t, decodes lossy l t /\ token lossy l s = (MOk t, s)) \/
      (lossy = false /\ utf8_valid l = false)) as [(t & DT & TK)|(-> & V)].
    { unfold token, decodes. destruct lossy; [eauto|]. destruct (utf8_valid l); eauto 6. }
    - rewrite (dbind_ok _ _ _ _ _ TK). pose proof (fields_has t) as HF. destruct (fields t) as [|w ps].
      + eexists. split; [reflexivity|]. right. left. eauto.
      + destruct (floats_bad ps s) as [(xs & F & R)|(qs & xs & p & rs & e & -> & F & N1 & R & T)].
        { intros p I. apply (fields_ne _ _ HF). right. exact I. }
        * exfalso. apply (NI (w, xs)). exists t, ps. auto.
        * exists e. split; [exact (dbind_err _ _ _ _ _ R)|]. right. right. exists t, w, qs, xs, p, rs. auto.
    - eexists. split; [unfold dbind, token; rewrite V; reflexivity|]. left. repeat split; auto. apply points, V.
  Qed.
  Lemma row_bad dims l s : dims <> 0 -> (forall v, ~ floret_row P dims l v) ->
    exists e, floret_line_t P dims l s = (MErr e, s) /\ row_error P dims l e.
  Proof.
    intros D0 NI. unfold floret_line_t. destruct (utf8_valid l) eqn:V; [|eexists; split; [reflexivity|left; auto]].
    pose proof (fields_has l) as HF. destruct (floats_bad (tl (fields l)) s) as [(xs & F & R)|(qs & xs & p & rs & e & EQ & F & N1 & R & T)].
    { intros p I. apply (fields_ne _ _ HF). destruct (fields l); [destruct I|right; exact I]. }
    - rewrite (dbind_ok _ _ _ _ _ R). destruct (N.eqb_spec (lenN xs) dims) as [E|E].
      + exfalso. destruct (fields l) as [|f ps]; cbn [tl] in F.
        * inv F. rewrite lenN_nil in D0. contradiction.
        * apply (NI xs). exists f, ps. auto.
      + eexists. split; [reflexivity|]. right. right. exists (fields l), xs. repeat split; auto.
    - exists e. split; [exact (dbind_err _ _ _ _ _ R)|]. right. left. destruct (fields l) as [|w ps]; cbn [tl] in EQ; [destruct qs; discriminate|].
      subst ps. exists w, qs, xs, p, rs. auto.
  Qed.

  Lemma lines_bad lossy ls1 l ls2 : Forall (fun l => exists it, line_item P lossy l it) ls1 -> (forall it, ~ line_item P lossy l it) ->
    forall data fuel p, lines data (ls1 ++ l :: ls2) -> (length data < fuel)%nat ->
    exists e s', text_lines_t P fuel lossy (mkStream data p) = (MErr e, s') /\ line_error P lossy l e.
  Proof.
    intros G B. induction G as [|l1 ls1 [it IT] G IH]; intros data fuel p H L; (destruct fuel as [|fuel]; [lia|]); cbn [text_lines_t app] in *.
    - inversion H as [|l' N0 NI E1 E2|l' r ls NI H' E1 E2]; subst.
      + unfold dbind at 1, io. rewrite read_until_miss by exact NI. destruct l as [|b l]; [contradiction|]. rewrite strip_nl_miss by exact NI.
        destruct (line_bad lossy (b :: l) (mkStream [] (p + lenN (b :: l))) B) as (e & E & X). exists e. eexists. split; [exact (dbind_err _ _ _ _ _ E)|exact X].
      + unfold dbind at 1, io. rewrite read_until_hit by exact NI. destruct (l ++ [x0a]) as [|b t] eqn:EB; [destruct l; discriminate|]. rewrite <- EB, strip_nl_hit.
        match goal with |- context [dbind _ _ ?s] => destruct (line_bad lossy l s B) as (e & E & X) end. exists e. eexists. split; [exact (dbind_err _ _ _ _ _ E)|exact X].
    - inversion H as [|l' N0 NI E1 E2|l' r ls NI H' E1 E2]; subst; [destruct ls1; discriminate|].
      unfold dbind at 1, io. rewrite read_until_hit by exact NI. destruct (l1 ++ [x0a]) as [|b t] eqn:EB; [destruct l1; discriminate|]. rewrite <- EB, strip_nl_hit.
      apply text_line_item in IT. assert (forall s, text_line_t P lossy l1 s = (MOk it, s)) as TL.
      { intros s. apply (same_Ok _ _ s it s (same_text_line P lossy l1)). unfold lift. rewrite IT. reflexivity. }
      rewrite (dbind_ok _ _ _ _ _ (TL _)). rewrite app_length in L. cbn [length] in L.
      destruct (IH r fuel (p + lenN (l1 ++ [x0a])) H' ltac:(lia)) as (e & s' & E & X). exists e, s'. split; [exact (dbind_err _ _ _ _ _ E)|exact X].
  Qed.
  Lemma strip_row dims l s : floret_line_t P dims (strip_crlf (l ++ [x0a])) s = floret_line_t P dims l s.
  Proof.
    destruct (strip_crlf_hit l) as [->|E]; [reflexivity|]. set (k := strip_crlf (l ++ [x0a])) in *. rewrite E. unfold floret_line_t.
    rewrite utf8_valid_cr. replace (fields (k ++ [x0d])) with (fields k); [reflexivity|]. symmetry. apply split_ws_cr.
  Qed.
  Lemma rows_bad dims ls1 l ls2 : dims <> 0 -> Forall (fun l => exists v, floret_row P dims l v) ls1 -> (forall v, ~ floret_row P dims l v) ->
    forall data fuel p, lines data (ls1 ++ l :: ls2) -> (length data < fuel)%nat ->
    exists e s', floret_lines_t P fuel dims (mkStream data p) = (MErr e, s') /\ row_error P dims l e.
  Proof.
    intros D0 G B. induction G as [|l1 ls1 [it IT] G IH]; intros data fuel p H L; (destruct fuel as [|fuel]; [lia|]); cbn [floret_lines_t app] in *.
    - inversion H as [|l' N0 NI E1 E2|l' r ls NI H' E1 E2]; subst.
      + unfold dbind at 1, io. rewrite read_until_miss by exact NI. destruct l as [|b l]; [contradiction|]. rewrite strip_crlf_miss by exact NI.
        destruct (row_bad dims (b :: l) (mkStream [] (p + lenN (b :: l))) D0 B) as (e & E & X). exists e. eexists. split; [exact (dbind_err _ _ _ _ _ E)|exact X].
      + unfold dbind at 1, io. rewrite read_until_hit by exact NI. destruct (l ++ [x0a]) as [|b t] eqn:EB; [destruct l; discriminate|]. rewrite <- EB.
        match goal with |- context [dbind _ _ ?s] => destruct (row_bad dims l s D0 B) as (e & E & X) end. rewrite <- strip_row in E.
        exists e. eexists. split; [exact (dbind_err _ _ _ _ _ E)|exact X].
    - inversion H as [|l' N0 NI E1 E2|l' r ls NI H' E1 E2]; subst; [destruct ls1; discriminate|].
      unfold dbind at 1, io. rewrite read_until_hit by exact NI. destruct (l1 ++ [x0a]) as [|b t] eqn:EB; [destruct l1; discriminate|]. rewrite <- EB.
      apply (floret_line_row P dims l1 it D0) in IT. assert (forall s, floret_line_t P dims (strip_crlf (l1 ++ [x0a])) s = (MOk it, s)) as TL.
      { intros s. rewrite strip_row. apply (same_Ok _ _ s it s (same_floret_line P dims l1)). unfold lift. rewrite IT. reflexivity. }
      rewrite (dbind_ok _ _ _ _ _ (TL _)). rewrite app_length in L. cbn [length] in L.
      destruct (IH r fuel (p + lenN (l1 ++ [x0a])) H' ltac:(lia)) as (e & s' & E & X). exists e, s'. split; [exact (dbind_err _ _ _ _ _ E)|exact X].
  Qed.

  Context (pf : profile) {Md : Type}.
  Definition text_fails (d : D (embeddings Md simple_vocab (array2 f32) f32)) data e : Prop := fst (d (mkStream data 0)) = MErr e.

  (** The first line that is not a word with numbers is the one that the text is about. *)
  Lemma text_first_bad lossy data ls1 l ls2 : lines data (ls1 ++ l :: ls2) ->
    Forall (fun l => exists it, line_item P lossy l it) ls1 -> (forall it, ~ line_item P lossy l it) ->
    exists e, text_fails (read_text_t P pf lossy) data e /\ line_error P lossy l e.
  Proof.
    intros H G B. destruct (lines_bad lossy ls1 l ls2 G B data (Datatypes.S (length data)) 0 H ltac:(lia)) as (e & s' & E & X).
    exists e. split; [|exact X]. unfold text_fails, read_text_t, read_embeds_t. cbn [build].
    erewrite dbind_err; [reflexivity|]. rewrite (dbind_ok _ _ _ tt (mkStream data 0) eq_refl). eapply dbind_err. exact E.
  Qed.

  Lemma number_ok d f n r p : numeral f n -> n < two64 -> ~ 43 <= bN d <= 57 ->
    exists p', read_number_t d (mkStream (f ++ d :: r) p) = (MOk n, mkStream r p').
  Proof.
    intros H L D. destruct (read_number_numeral d f n r p H L D) as (p' & E). exists p'. exact (same_Ok _ _ _ _ _ (same_number_t d) E).
  Qed.
  Lemma string_ok d f r p : ~ In d f -> utf8_valid f = true ->
    exists p', read_string_t d false (mkStream (f ++ d :: r) p) = (MOk f, mkStream r p').
  Proof.
    intros H V. destruct (read_string_field d false f r p H V) as (p' & E). exists p'. exact (same_Ok _ _ _ _ _ (same_string_t d false) E).
  Qed.
  Lemma dims_head lossy data n d rest : header_line data n d rest -> dims_fit n d ->
    exists p, forall e s', (dbind (read_lines_t P lossy) (fun wd => let '(words, data) := wd in
      dbind (text_shape_t (Some (n, d)) (lenN words) (lenN data)) (fun sh =>
      dbind (from_shape_vec_t (fst sh) (snd sh) data) (fun a =>
      dbind (build (lift (simple_new words))) (fun v =>
      build (lift (emb_new_with_maybe_norms (Md := Md) simple_ops (nd_ops f32) pf None v a None)))))) (mkStream rest p)) = (MErr e, s') ->
    text_fails (read_text_dims_t P pf lossy) data e /\ text_fails (read_text_dims_raw_t P pf lossy) data e.
  Proof.
    intros (f & g & N1 & N2 & L1 & L2 & ->) [F1 F2].
    destruct (number_ok x20 f n (g ++ x0a :: rest) 0 N1 L1) as (p1 & E1); [change (bN x20) with 32; lia|].
    destruct (number_ok x0a g d rest p1 N2 L2) as (p2 & E2); [change (bN x0a) with 10; lia|].
    exists p2. intros e s' E.
    assert (read_text_dims_raw_t (Md := Md) P pf lossy (mkStream (f ++ x20 :: g ++ x0a :: rest) 0) = (MErr e, s')) as R.
    { unfold read_text_dims_raw_t. rewrite (dbind_ok _ _ _ _ _ E1), (dbind_ok _ _ _ _ _ E2). unfold read_embeds_t.
      erewrite dbind_ok; [exact E|]. assert (mul64 pf n d = Ok (n * d)) as M.
      { unfold mul64. destruct (N.ltb_spec (n * d) two64); [reflexivity|unfold isize_max, two64 in *; lia]. }
      unfold build, io, Stream.bind. cbv beta iota. rewrite reserve_ok by exact F1. unfold lift. rewrite M. cbv beta iota. rewrite reserve_ok by exact F2. reflexivity. }
    unfold text_fails, read_text_dims_t. rewrite (dbind_err _ _ _ _ _ R), R. auto.
  Qed.
  Lemma text_dims_first_bad lossy data n d rest ls1 l ls2 : header_line data n d rest -> dims_fit n d -> lines rest (ls1 ++ l :: ls2) ->
    Forall (fun l => exists it, line_item P lossy l it) ls1 -> (forall it, ~ line_item P lossy l it) ->
    exists e, text_fails (read_text_dims_t P pf lossy) data e /\ text_fails (read_text_dims_raw_t P pf lossy) data e /\ line_error P lossy l e.
  Proof.
    intros HD F H G B. destruct (dims_head lossy data n d rest HD F) as (p & K).
    destruct (lines_bad lossy ls1 l ls2 G B rest (Datatypes.S (length rest)) p H ltac:(lia)) as (e & s' & E & X).
    exists e. destruct (K e s'); [|auto]. apply dbind_err. exact E.
  Qed.
  (** The numbers of the header. *)
  Lemma text_dims_sizes lossy data n d rest items : header_line data n d rest -> dims_fit n d -> text_items P lossy rest items ->
    let total := lenN (flat_map snd items) in
    (lenN items <> n -> exists e, text_fails (read_text_dims_t P pf lossy) data e /\ text_fails (read_text_dims_raw_t P pf lossy) data e /\
       display e = txt "Invalid file format Incorrect vocabulary size, expected: " ++ dec_print n ++ txt ", got: " ++ dec_print (lenN items)) /\
    (lenN items = n -> n <> 0 -> total / n <> d ->
       exists e, text_fails (read_text_dims_t P pf lossy) data e /\ text_fails (read_text_dims_raw_t P pf lossy) data e /\
       display e = txt "Invalid file format Incorrect embedding dimensionality, expected: " ++ dec_print d ++ txt ", got: " ++ dec_print (total / n)) /\
    (lenN items = n -> n <> 0 -> total / n = d -> total <> n * d ->
       exists e, text_fails (read_text_dims_t P pf lossy) data e /\ text_fails (read_text_dims_raw_t P pf lossy) data e /\
       display e = txt "Cannot construct matrix with the given shape").
  Proof.
    intros HD F IT total. destruct (dims_head lossy data n d rest HD F) as (p & K).
    assert (read_lines_t P lossy (mkStream rest p) = (MOk (map fst items, flat_map snd items), mkStream [] (p + lenN rest))) as R.
    { apply (same_Ok _ _ _ _ _ (same_read_lines P lossy)). apply (read_lines_items P lossy (mkStream rest p) items eq_refl IT). }
    assert (lenN (map fst items) = lenN items) as LM by apply lenN_map.
    split; [|split].
    - intros NE. eexists. assert (forall A B C : Prop, A /\ B -> C -> A /\ B /\ C) as X by tauto. apply X.
      + eapply K. rewrite (dbind_ok _ _ _ _ _ R). apply dbind_err. unfold text_shape_t. rewrite LM.
        destruct (N.eqb_spec (lenN items) n); [contradiction|]. cbn [negb]. reflexivity.
      + reflexivity.
    - intros EQ N0 NE. eexists. assert (forall A B C : Prop, A /\ B -> C -> A /\ B /\ C) as X by tauto. apply X.
      + eapply K. rewrite (dbind_ok _ _ _ _ _ R). apply dbind_err. unfold text_shape_t. rewrite LM.
        destruct (N.eqb_spec (lenN items) n); [|contradiction]. cbn [negb]. unfold dbind, build, io, lift, div64.
        destruct (N.eqb_spec n 0); [contradiction|]. fold total. destruct (N.eqb_spec (total / n) d); [contradiction|]. cbn [negb]. reflexivity.
      + reflexivity.
    - intros EQ N0 EQ2 NE. eexists. assert (forall A B C : Prop, A /\ B -> C -> A /\ B /\ C) as X by tauto. apply X.
      + eapply K. rewrite (dbind_ok _ _ _ _ _ R). erewrite (dbind_ok (text_shape_t _ _ _)); [apply dbind_err|].
        2:{ unfold text_shape_t. rewrite LM. destruct (N.eqb_spec (lenN items) n); [|contradiction]. cbn [negb]. unfold dbind, build, io, lift, div64.
            destruct (N.eqb_spec n 0); [contradiction|]. fold total. destruct (N.eqb_spec (total / n) d); [|contradiction]. cbn [negb]. reflexivity. }
        cbn [fst snd]. unfold from_shape_vec_t. fold total. destruct (N.eqb_spec total (n * d)); [contradiction|]. reflexivity.
      + reflexivity.
  Qed.

  (** ** floret *)
  Definition floret_fails data e : Prop := fst (read_floret_text_t (Md := Md) P pf (mkStream data 0)) = MErr e.
  Definition floret_tail_t nb dims mn mx nh seed bow eow : D (embeddings Md (subword_vocab floret_indexer) (array2 f32) f32) :=
    (if nb =? 0 then dfail (MFormat (txt "Expected at least 1 bucket")) else
    if dims =? 0 then dfail (MFormat (txt "Embeddings should have at least 1 dimension")) else
    if mx mod two32 <? mn mod two32
    then dfail (MFormat (txt "The minimum n-gram length (" ++ dec_print (mn mod two32)
           ++ txt ") must not be larger than the maximum length (" ++ dec_print (mx mod two32) ++ txt ")")) else
    if negb ((1 <=? nh mod two32) && (nh mod two32 <=? 4))
    then dfail (MFormat (txt "The number of hashes should be between 1 and 4 (inclusive), was: "
           ++ dec_print (nh mod two32))) else
    c <- build (lift (mul64 pf nb dims)) ;;
    build (reserve c 4) ;;;
    data <- read_floret_lines_t P dims ;;
    a <- from_shape_vec_t nb dims data ;;
    ix <- build (lift (floret_indexer_new nb (nh mod two32) (seed mod two32))) ;;
    v <- build (lift (sub_new_with_boundaries floret_ops pf [] (mn mod two32) (mx mod two32) ix bow eow)) ;;
    build (lift (emb_new_with_maybe_norms (sub_ops floret_ops) (nd_ops f32) pf None v a None)))%d.
  Lemma floret_head_t data nb dims mn mx nh seed bow eow rest : floret_head data nb dims mn mx nh seed bow eow rest ->
    exists p, read_floret_text_t (Md := Md) P pf (mkStream data 0) = floret_tail_t nb dims mn mx nh seed bow eow (mkStream rest p).
  Proof.
    intros (f1 & f2 & f3 & f4 & f5 & f6 & N1 & N2 & N3 & N4 & N5 & N6 & L & B1 & B2 & E1 & E2 & ->).
    repeat match goal with H : Forall _ (_ :: _) |- _ => inv H end. unfold read_floret_text_t.
    assert (~ 43 <= bN x20 <= 57) as SP by (change (bN x20) with 32; lia).
    edestruct (number_ok x20 f1 nb) as (p1 & X1); [eassumption..|]. rewrite (dbind_ok _ _ _ _ _ X1).
    edestruct (number_ok x20 f2 dims) as (p2 & X2); [eassumption..|]. rewrite (dbind_ok _ _ _ _ _ X2).
    edestruct (number_ok x20 f3 mn) as (p3 & X3); [eassumption..|]. rewrite (dbind_ok _ _ _ _ _ X3).
    edestruct (number_ok x20 f4 mx) as (p4 & X4); [eassumption..|]. rewrite (dbind_ok _ _ _ _ _ X4).
    edestruct (number_ok x20 f5 nh) as (p5 & X5); [eassumption..|]. rewrite (dbind_ok _ _ _ _ _ X5).
    edestruct (number_ok x20 f6 seed) as (p6 & X6); [eassumption..|]. rewrite (dbind_ok _ _ _ _ _ X6).
    edestruct (string_ok x20 bow) as (p7 & X7); [eassumption..|]. rewrite (dbind_ok _ _ _ _ _ X7).
    edestruct (string_ok x0a eow) as (p8 & X8); [eassumption..|]. rewrite (dbind_ok _ _ _ _ _ X8).
    eexists. reflexivity.
  Qed.
  Lemma floret_params_text data nb dims mn mx nh seed bow eow rest : floret_head data nb dims mn mx nh seed bow eow rest ->
    (nb = 0 -> exists e, floret_fails data e /\ display e = txt "Invalid file format Expected at least 1 bucket") /\
    (nb <> 0 -> dims = 0 -> exists e, floret_fails data e /\ display e = txt "Invalid file format Embeddings should have at least 1 dimension") /\
    (nb <> 0 -> dims <> 0 -> mx mod two32 < mn mod two32 -> exists e, floret_fails data e /\
       display e = txt "Invalid file format The minimum n-gram length (" ++ dec_print (mn mod two32)
                   ++ txt ") must not be larger than the maximum length (" ++ dec_print (mx mod two32) ++ txt ")") /\
    (nb <> 0 -> dims <> 0 -> mn mod two32 <= mx mod two32 -> ~ 1 <= nh mod two32 <= 4 -> exists e, floret_fails data e /\
       display e = txt "Invalid file format The number of hashes should be between 1 and 4 (inclusive), was: " ++ dec_print (nh mod two32)).
  Proof.
    intros H. destruct (floret_head_t _ _ _ _ _ _ _ _ _ _ H) as (p & R). unfold floret_fails. rewrite R. unfold floret_tail_t.
    repeat split; intros; repeat match goal with
      | |- context [?a =? 0] => destruct (N.eqb_spec a 0); [try contradiction|try contradiction]
      | |- context [?a <? ?b] => destruct (N.ltb_spec a b); [try lia|try lia]
      | |- context [(1 <=? ?a) && (?a <=? 4)] => replace ((1 <=? a) && (a <=? 4)) with false by (symmetry; lia)
      end; eexists; (split; [reflexivity|reflexivity]).
  Qed.
  Lemma floret_to_rows nb dims mn mx nh seed bow eow s : params_ok nb dims mn mx nh -> nb * dims * 4 <= isize_max ->
    floret_tail_t nb dims mn mx nh seed bow eow s =
    dbind (read_floret_lines_t P dims) (fun data => dbind (from_shape_vec_t nb dims data) (fun a =>
      dbind (build (lift (floret_indexer_new nb (nh mod two32) (seed mod two32)))) (fun ix =>
      dbind (build (lift (sub_new_with_boundaries floret_ops pf [] (mn mod two32) (mx mod two32) ix bow eow))) (fun v =>
      build (lift (emb_new_with_maybe_norms (sub_ops floret_ops) (nd_ops f32) pf None v a None)))))) s.
  Proof.
    intros (H1 & H2 & H3 & H4) C. unfold floret_tail_t. destruct (N.eqb_spec nb 0); [contradiction|]. destruct (N.eqb_spec dims 0); [contradiction|].
    destruct (N.ltb_spec (mx mod two32) (mn mod two32)); [lia|]. assert ((1 <=? nh mod two32) && (nh mod two32 <=? 4) = true) as -> by lia. cbn [negb].
    assert (build (lift (mul64 pf nb dims)) s = (MOk (nb * dims), s)) as E1.
    { unfold build, io, lift, mul64. destruct (N.ltb_spec (nb * dims) two64); [reflexivity|unfold isize_max, two64 in *; lia]. }
    rewrite (dbind_ok _ _ _ _ _ E1). erewrite dbind_ok; [reflexivity|]. unfold build, io. rewrite reserve_ok by exact C. reflexivity.
  Qed.
  Lemma floret_first_bad data nb dims mn mx nh seed bow eow rest ls1 l ls2 : floret_head data nb dims mn mx nh seed bow eow rest ->
    params_ok nb dims mn mx nh -> nb * dims * 4 <= isize_max -> lines rest (ls1 ++ l :: ls2) ->
    Forall (fun l => exists v, floret_row P dims l v) ls1 -> (forall v, ~ floret_row P dims l v) ->
    exists e, floret_fails data e /\ row_error P dims l e.
  Proof.
    intros H PO C HL G B. destruct (floret_head_t _ _ _ _ _ _ _ _ _ _ H) as (p & R). unfold floret_fails. rewrite R, floret_to_rows by auto.
    destruct PO as (_ & D0 & _). destruct (rows_bad dims ls1 l ls2 D0 G B rest (Datatypes.S (length rest)) p HL ltac:(lia)) as (e & s' & E & X).
    exists e. split; [|exact X]. erewrite dbind_err; [reflexivity|exact E].
  Qed.
  Lemma floret_count_text data nb dims mn mx nh seed bow eow rest rows : floret_head data nb dims mn mx nh seed bow eow rest ->
    params_ok nb dims mn mx nh -> nb * dims * 4 <= isize_max -> floret_rows P dims rest rows -> lenN rows <> nb ->
    exists e, floret_fails data e /\ display e = txt "Cannot construct matrix with the given shape".
  Proof.
    intros H PO C HR NE. destruct (floret_head_t _ _ _ _ _ _ _ _ _ _ H) as (p & R). unfold floret_fails. rewrite R, floret_to_rows by auto.
    destruct PO as (_ & D0 & _). pose proof (floret_rows_width P dims rest rows HR) as W.
    rewrite (dbind_ok _ _ _ _ _ (same_Ok _ _ _ _ _ (same_floret_lines P dims) (read_rows P dims (mkStream rest p) rows eq_refl D0 HR))).
    exists MMatrixShape. split; [|reflexivity]. erewrite dbind_err; [reflexivity|]. unfold from_shape_vec_t.
    rewrite (concat_lenN dims rows W). destruct (N.eqb_spec (lenN rows * dims) (nb * dims)) as [E|E]; [|reflexivity].
    exfalso. apply NE. apply N.mul_cancel_r in E; auto.
  Qed.
End Lines.
