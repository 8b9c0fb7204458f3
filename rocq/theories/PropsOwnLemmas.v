(** Executions and remaining proofs for C86. *)
From Coq Require Import Ascii String.
From Verif Require Import Base Spec FloatOps FloatExample Maps ModelDict ModelCoder ModelTok ModelStat ModelBuilder ModelStream ModelVGram ModelString
  SpecTok SpecStat SpecBuilder DictProofs TokProofs StreamProofs StringProofs EnvExample StreamRuns VGramRuns StringRuns TextPersist RenameProofs SharedProofs OwnProofs
  SpecStream SpecVGram SpecExtra SpecString SpecOwn.
Local Open Scope string_scope.
Local Open Scope list_scope.

Lemma life_tok fl k size iter cs v : tvlife fl (new_tvgram_with fl size iter (new_tok k)) cs v -> tok_ok (tvtok v) /\ tkind (tvtok v) = k.
Proof.
  induction 1 as [|cs v c v' H [IH1 IH2] Hs]; [split; [apply tok_ok_new|reflexivity]|]. destruct c as [w xs|w xs]; cbn [tvstep] in Hs.
  - unfold tv_fit in Hs. apply bind_ok in Hs as ([ids T] & E & Hs). apply bind_ok in Hs as ([b y] & _ & Hs). injection Hs as <-. cbn [tvtok].
    destruct (all_keep xs _ _ _ IH1 E) as (K1 & _ & K2). split; [exact K1|congruence].
  - destruct Hs as [r Hs]. unfold tv_transform in Hs. apply bind_ok in Hs as ([ids T] & E & Hs). apply bind_ok in Hs as ([b y] & _ & Hs).
    apply bind_ok in Hs as (al & _ & Hs). apply bind_ok in Hs as (l & _ & Hs). injection Hs as _ <-. cbn [tvtok].
    destruct (all_keep xs _ _ _ IH1 E) as (K1 & _ & K2). split; [exact K1|congruence].
Qed.
Lemma same_tokens fl k size iter cs v w xs xs' : tvlife fl (new_tvgram_with fl size iter (new_tok k)) cs v ->
  Forall2 (fun s s' => readable k s /\ readable k s' /\ exists ws, tokens_of k s ws /\ tokens_of k s' ws) xs xs' ->
  tv_fit fl true w v xs = tv_fit fl true w v xs' /\ tv_transform fl true w v xs = tv_transform fl true w v xs'.
Proof.
  intros H Hx. destruct (life_tok _ _ _ _ _ _ H) as [H1 H2]. unfold tv_fit, tv_transform. rewrite (same_transform_all k xs xs' Hx _ H1 H2). now split.
Qed.

(** ** A numbering of the characters, downwards *)
Definition down (w : text) : Z := match w with [c] => (1000 - c)%Z | _ => 0%Z end.
Lemma down_numbering : numbering CharTok down.
Proof.
  intros s s' w w' (x & ws & _ & (n & _ & ->) & Hi) (x' & ws' & _ & (n' & _ & ->) & Hi') E. apply in_map_iff in Hi as (c & <- & _). apply in_map_iff in Hi' as (c' & <- & _).
  unfold down in E. f_equal. lia.
Qed.
Definition back : world exf := listed [1; 0]%Z 100.
Lemma numbers_norm s n : normalize CharTok s = Ok n -> numbers CharTok down s (map (fun c => 1000 - c)%Z n).
Proof.
  intro H. exists (tokenize CharTok n). split; [exact (tokens_norm CharTok s n H)|]. cbn [tokenize]. rewrite map_map. reflexivity.
Qed.
Lemma pair_numbers : Forall2 (numbers CharTok down) pair_texts [[903; 902; 903]; [902]]%Z.
Proof.
  constructor; [exact (numbers_norm (txt "Aba") (txt "aba") eq_refl)|]. constructor; [exact (numbers_norm (txt "b!") (txt "b") eq_refl)|constructor].
Qed.
Lemma more_numbers : Forall2 (numbers CharTok down) [txt "Bab, z"] [[902; 903; 902; 878]]%Z.
Proof. constructor; [exact (numbers_norm (txt "Bab, z") (txt "babz") eq_refl)|constructor]. Qed.

Lemma own_run : (v <- tv_fit exf true back (new_tvgram exf 10 1) pair_texts ;; al <- tv_alphabet exf v ;;
  '(r, _) <- tv_transform exf true (listed [] 100) v [txt "Bab, z"] ;; Ok (al, tv_freqs exf v, r)) = Ok ([txt "b"; txt "a"], [2; 2]%Z, [txt "b a b"]).
Proof. vm_compute. reflexivity. Qed.
Lemma int_run : ('(_, v) <- fit exf back (new_vgram exf 10 1) [[903; 902; 903]; [902]]%Z ;; al <- s_alphabet exf (vs v) ;;
  '(r, _) <- transform exf (listed [] 100) v [[902; 903; 902; 878]]%Z ;; Ok (al, s_freqs exf (vs v), r)) = Ok ([[902]; [903]]%Z, [2; 2]%Z, [[0; 1; 0]]).
Proof. vm_compute. reflexivity. Qed.

Lemma own_case : exists v v', tvlife exf (new_tvgram_with exf 10 1 (new_tok CharTok)) [TFit back pair_texts] v /\
  Forall2 (own_call exf CharTok down) [TFit back pair_texts] [VFit back [[903; 902; 903]; [902]]]%Z /\
  vlife exf (new_vgram exf 10 1) [VFit back [[903; 902; 903]; [902]]]%Z v' /\
  tv_alphabet exf v = Ok [txt "b"; txt "a"] /\ s_alphabet exf (vs v') = Ok [[902]; [903]]%Z /\
  tv_freqs exf v = [2; 2]%Z /\ s_freqs exf (vs v') = [2; 2]%Z /\
  (exists v1, tv_transform exf true (listed [] 100) v [txt "Bab, z"] = Ok ([txt "b a b"], v1)) /\
  exists v1', transform exf (listed [] 100) v' [[902; 903; 902; 878]]%Z = Ok ([[0; 1; 0]], v1').
Proof.
  pose proof own_run as A. pose proof int_run as B.
  apply bind_ok in A as (v & Av & A). apply bind_ok in A as (al & Aa & A). apply bind_ok in A as ([r v1] & Ar & A). injection A as -> Af ->.
  apply bind_ok in B as ([b v'] & Bv & B). apply bind_ok in B as (al' & Ba & B). apply bind_ok in B as ([r' v1'] & Br & B). injection B as -> Bf ->.
  exists v, v'. split; [apply (tl_step exf _ [] (new_tvgram exf 10 1) (TFit back pair_texts) v (tl_nil exf _)); exact Av|].
  split; [constructor; [split; [reflexivity|exact pair_numbers]|constructor]|].
  split; [apply (vl_step exf _ [] (new_vgram exf 10 1) (VFit back _) v' (vl_nil exf _)); exists b; exact Bv|].
  split; [exact Aa|]. split; [exact Ba|]. split; [exact Af|]. split; [exact Bf|]. split; [exists v1; exact Ar|exists v1'; exact Br].
Qed.

Lemma stream_run : (z0 <- new_tstream exf 10 false false ;; z1 <- t_accept exf true exenv z0 (txt "Aba") ;; z <- t_update exf z1 ;;
  '(l, z') <- t_parse exf true z (txt "Bab, z") ;; Ok tt) = Ok tt.
Proof. vm_compute. reflexivity. Qed.
Lemma own_stream_case : exists z0 z l z', new_tstream exf 10 false false = Ok z0 /\ thist exf z0 [tfeed (txt "Aba"); TUpdate] z /\
  Forall2 (own_op exf CharTok down) [tfeed (txt "Aba"); TUpdate] [SAccept exenv [903; 902; 903]; SUpdate]%Z /\ t_parse exf true z (txt "Bab, z") = Ok (l, z').
Proof.
  pose proof stream_run as E.
  apply bind_ok in E as (z0 & E0 & E). apply bind_ok in E as (z1 & E1 & E). apply bind_ok in E as (z & E2 & E). apply bind_ok in E as ([l z'] & E3 & _).
  exists z0, z, l, z'. split; [exact E0|]. split.
  - apply (tt_step exf z0 [tfeed (txt "Aba")] z1 TUpdate z); [|exact E2]. apply (tt_step exf z0 [] z0 (tfeed (txt "Aba")) z1 (tt_nil exf z0)). exact E1.
  - split; [|exact E3]. constructor; [split; [reflexivity|exact (numbers_norm (txt "Aba") (txt "aba") eq_refl)]|]. constructor; [exact I|constructor].
Qed.

Lemma readme_run : ('(codes, tk) <- tok_transform_all true (new_tok CharTok) pair_texts ;; '(_, v) <- fit exf back (new_vgram exf 10 1) codes ;;
  '(ids, _) <- transform exf (listed [] 100) v codes ;; Ok (tok_decode_all tk codes, tok_decode_all tk (map (map Z.of_nat) ids))) = Ok ([txt "aba"; txt "b"], [txt "bab"; txt "a"]).
Proof. vm_compute. reflexivity. Qed.
Lemma readme_decode : exists codes tk v b ids v', tok_transform_all true (new_tok CharTok) pair_texts = Ok (codes, tk) /\
  fit exf back (new_vgram exf 10 1) codes = Ok (b, v) /\ transform exf (listed [] 100) v codes = Ok (ids, v') /\
  tok_decode_all tk codes = [txt "aba"; txt "b"] /\ tok_decode_all tk (map (map Z.of_nat) ids) = [txt "bab"; txt "a"].
Proof.
  pose proof readme_run as A. apply bind_ok in A as ([codes tk] & E & A). apply bind_ok in A as ([b v] & Ef & A). apply bind_ok in A as ([ids v'] & Et & A).
  injection A as A D. exists codes, tk, v, b, ids, v'. split; [exact E|]. split; [exact Ef|]. split; [exact Et|]. split; [exact A|exact D].
Qed.

Lemma ascii_by s : forallb (fun c => (0 <=? c) && (c <? 128))%Z s = true -> ascii_text s.
Proof. intros H c Hc. rewrite forallb_forall in H. specialize (H c Hc). lia. Qed.
Lemma same_case : Forall2 (fun s s' => readable CharTok s /\ readable CharTok s' /\ exists ws, tokens_of CharTok s ws /\ tokens_of CharTok s' ws)
  [txt "Aba, "] [txt "a-bA"].
Proof.
  constructor; [|constructor]. split; [apply ascii_by; reflexivity|]. split; [apply ascii_by; reflexivity|]. exists (tokenize CharTok (txt "aba")).
  split; [exact (tokens_norm CharTok (txt "Aba, ") (txt "aba") eq_refl)|exact (tokens_norm CharTok (txt "a-bA") (txt "aba") eq_refl)].
Qed.
