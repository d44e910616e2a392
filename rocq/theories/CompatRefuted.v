(** * What the errors of other formats say wrongly. *)
From Coq Require Import Strings.String.
From Verif Require Import Base BaseFacts Utf8 Utf8Facts Stream StreamFacts F32 F32Text ChunkIO ChunkFacts Subword Vocab VocabFacts Storage StorageFacts
  Embeddings TextIO FastText FileSpec VocabSpec EmbSpec TextSpec TextFacts TextThms FloretThms FastTextSpec FastTextThms
  Messages MessageSpec MessageThms MessageWrong CompatMessages CompatErasure CompatTexts CompatLines CompatCut CompatFastText.
Local Open Scope N_scope.

(** A number at the end of the data: its last byte is not shown. *)
Lemma number_shown_not : exists f g e s', ~ is_number f /\ ~ In x0a f /\ g <> f /\
  read_number_t x0a (mkStream f 0) = (MErr e, s') /\ display e = number_text g (txt "invalid digit found in string").
Proof.
  exists (txt "12ab"), (txt "12a"). do 2 eexists. split; [|split; [|split; [|split; [vm_compute; reflexivity|reflexivity]]]].
  - intros (n & H). apply dec_parse_spec in H. vm_compute in H. discriminate.
  - vm_compute. intuition discriminate.
  - discriminate.
Qed.

(** The number of components that the text shows need not be that of any line. *)
Definition dims_example : list byte := txt "2 3" ++ [x0a] ++ txt "a 1" ++ [x0a] ++ txt "b 1 1 1 1" ++ [x0a].
Definition one32 : f32 := fone f32_ops.
Definition dims_items : list (str * list f32) := [(txt "a", [one32]); (txt "b", [one32; one32; one32; one32])].
Lemma dims_shown_not : exists data n d rest items e, header_line data n d rest /\ dims_fit n d /\ text_items rust_ftext false rest items /\
  text_fails (Md := unit) (read_text_dims_t rust_ftext Release false) data e /\
  display e = txt "Invalid file format Incorrect embedding dimensionality, expected: 3, got: 2" /\
  (forall w v, In (w, v) items -> lenN v <> 2).
Proof.
  exists dims_example, 2, 3, (txt "a 1" ++ [x0a] ++ txt "b 1 1 1 1" ++ [x0a]), dims_items. eexists.
  split; [|split; [|split; [|split; [vm_compute; reflexivity|split; [reflexivity|]]]]].
  - exists (txt "2"), (txt "3"). split; [|split; [|split; [reflexivity|split; reflexivity]]]; apply (dec_parse_spec); vm_compute; reflexivity.
  - split; vm_compute; discriminate.
  - exists [txt "a 1"; txt "b 1 1 1 1"]. split.
    + apply (lines_cons (txt "a 1")); [vm_compute; intuition discriminate|]. apply (lines_cons (txt "b 1 1 1 1") []); [vm_compute; intuition discriminate|constructor].
    + constructor; [|constructor; [|constructor]]; apply text_line_item; vm_compute; reflexivity.
  - intros w v H. cbn [dims_items In] in H. destruct H as [H|[H|[]]]; inv H; discriminate.
Qed.

(** The numbers of a floret header are shown modulo 2^32. *)
Definition hashes_example : list byte := txt "1 1 3 6 4294967296 0 < >" ++ [x0a].
Lemma hashes_shown_not : exists data nb dims mn mx nh seed bow eow rest e, floret_head data nb dims mn mx nh seed bow eow rest /\
  floret_fails rust_ftext Release (Md := unit) data e /\ nh = 4294967296 /\
  display e = txt "Invalid file format The number of hashes should be between 1 and 4 (inclusive), was: 0".
Proof.
  exists hashes_example, 1, 1, 3, 6, 4294967296, 0, (txt "<"), (txt ">"), []. eexists. split; [|split; [vm_compute; reflexivity|split; reflexivity]].
  exists (txt "1"), (txt "1"), (txt "3"), (txt "6"), (txt "4294967296"), (txt "0").
  do 6 (split; [apply dec_parse_spec; vm_compute; reflexivity|]). split; [repeat constructor|].
  split; [vm_compute; intuition discriminate|]. split; [reflexivity|]. split; [vm_compute; intuition discriminate|]. split; reflexivity.
Qed.

(** The version that the text says is expected is not the only one that is
    accepted. *)
Lemma version_expected_not (pf : profile) (T : toml_ops) (t : toml_table T) (te : ft_config -> str) :
  exists f e, ft_fields_ok f /\ ff_version f = 11 /\ fst (read_fasttext_t pf T (fun _ => Some t) te false (mkStream (ft_bytes f) 0)) = MOk e.
Proof.
  exists (mkFtFile 793712314 11 [1; 5; 5; 5; 5; 1; 2; 2; 1; 3; 6; 100] 0 0 0 9 (2 ^ 64 - 1) [] 0 (mkA2 1 [[one32]])). eexists.
  split; [repeat constructor|]. split; [reflexivity|]. destruct pf; vm_compute; reflexivity.
Qed.

(** A word that was cut is reported as a missing frequency, or as a word that
    is not UTF-8, though it is. *)
Lemma word_cut name i pos : utf8_valid name = true -> ~ In x00 name -> i <= lenN name ->
  exists e s', read_ft_entry_t false (mkStream (takeN i name) pos) = (MErr e, s') /\
  (utf8_valid (takeN (i - 1) name) = true /\ display e = txt "Cannot read word frequency" \/
   utf8_valid (takeN (i - 1) name) = false /\ points_at (txt "Token contains invalid UTF-8: ") (takeN (i - 1) name) e).
Proof.
  intros V NI L. assert (~ In x00 (takeN i name)) as NT by (intros X; apply NI; exact (in_takeN _ _ _ X)).
  assert (removelast (takeN i name) = takeN (i - 1) name) as RL by (apply removelast_takeN, L).
  unfold read_ft_entry_t, read_string_t, dbind, io. rewrite read_until_miss by exact NT. rewrite RL. unfold token.
  destruct (utf8_valid (takeN (i - 1) name)) eqn:E.
  - do 2 eexists. split; [reflexivity|]. left. auto.
  - do 2 eexists. split; [reflexivity|]. right. split; [reflexivity|]. apply points, E.
Qed.
Lemma word_cut_not : exists name i e s', utf8_valid name = true /\ ~ In x00 name /\ i <= lenN name /\
  read_ft_entry_t false (mkStream (takeN i name) 0) = (MErr e, s') /\
  display e = txt "Invalid file format Token contains invalid UTF-8: incomplete utf-8 byte sequence from index 0".
Proof.
  exists [xc3; xa9], 2. do 2 eexists. split; [reflexivity|]. split; [vm_compute; intuition discriminate|]. split; [discriminate|].
  split; [vm_compute; reflexivity|]. reflexivity.
Qed.
