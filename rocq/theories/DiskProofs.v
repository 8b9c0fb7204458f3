(** DiskProofs: what is on the disk after saves that may fail (C97). *)
From Coq Require Import Ascii String.
From Verif Require Import Base FloatOps FloatLaws ModelDict ModelCoder ModelTok Maps ModelStat ModelBuilder ModelStream ModelVGram ModelString ModelJson ModelPersist ModelSave ModelDisk
  CoderProofs DictProofs TokProofs StringProofs PropsStringLemmas JsonProofs JsonRoundTrip PersistProofs PropsPersistLemmas TextPersist Utf8Proofs EmitProofs SaveProofs
  SpecTok SpecJson SpecStream SpecVGram SpecString SpecPersist SpecSave SpecDisk.
Local Open Scope list_scope.

Section D.
  Context (fl : fops) (io : float_io (F fl)).

  (** Every beginning of what a save that throws has written is unreadable. *)
  Lemma effect_lost_part tok ex old z t q r : effect_any fl io true tok ex old z = Ok (t, Some JsonType) -> int_stream fl z -> tok_chars tok -> minp_file fl io z ->
    t = q ++ r -> parse io q = Throw JsonParse.
  Proof.
    intros H Hi Ht Hm Eq. rewrite effect_any_eq in H. apply effect_thrown in H as (o & Ho & H).
    2:{ destruct (alphabet_to_json fl tok z) as [a|k|e|] eqn:Ea; cbn [bind]; intro X; try discriminate X. apply alphabet_throws in Ea. subst e. discriminate X. }
    apply bind_ok in Ho as (a & Ea & Ho). injection Ho as <-. rewrite emit_written in H.
    apply alphabet_saved in Ea as (p & d & es & Ed & -> & He). pose proof (fits_all fl _ _ _ _ _ Hi Ht Ed He) as Hf.
    set (o := full_obj fl _ _ _ _ _) in H.
    assert (P : printable io (JObj o)).
    { apply full_printable.
      - apply pushed_printable, Forall_map. eapply Forall_impl; [|exact Hf]. apply entry_printable.
      - now apply coder_printable.
      - unfold minp_written. destruct (zminp z) as [x|] eqn:Ex; [|constructor]. destruct (Hm x Ex) as [E|E].
        + rewrite E. constructor.
        + pose proof E as (t' & -> & _). now constructor.
      - apply Hi. }
    assert (K : keyed (JObj o)).
    { apply full_keyed.
      - apply pushed_keyed, Forall_map, Forall_forall. intros e _. apply entry_keyed.
      - apply pushed_keyed, Forall_map, Forall_forall. intros. constructor.
      - unfold minp_written. destruct (zminp z) as [x|]; [destruct (io_show io x)|]; constructor. }
    clearbody o. destruct (object_settles io o (proj2 (Forall_forall _ _) (fun q _ => all_settle io (snd q))) P K 0%nat) as [(t' & _ & E)|(_ & q' & u & m' & E & D & Nu & P')]; rewrite E in H; [discriminate|].
    injection H as <-. subst q'. refine (@file_cut _ io m' _ q (r ++ u) D P' _ _); [now rewrite app_assoc|]. intro X. apply app_eq_nil in X as [_ X]. contradiction.
  Qed.

  (** The four classes at once. *)
  Definition o_tok (o : obj fl) : option tokenizer := match o with BStream _ | BVGram _ => None | BText z => Some (ttok z) | BTexts v => Some (tvtok v) end.
  Definition o_ex (o : obj fl) : option (bool * bool) := match o with BTexts v => Some (vfitted (tv v), vcomputed (tv v)) | _ => None end.
  Definition o_stream (o : obj fl) : stream fl := match o with BStream z => z | BVGram v => vs v | BText z => tst z | BTexts v => vs (tv v) end.
  Lemma obj_save_any o : obj_save fl io o = save_any fl io true (o_tok o) (o_ex o) (o_stream o).
  Proof. destruct o; reflexivity. Qed.
  Lemma obj_effect_any old o : save_effect fl io old (obj_info fl o) = effect_any fl io true (o_tok o) (o_ex o) old (o_stream o).
  Proof.
    destruct o as [z|v|z|v]; unfold effect_any; cbn [obj_info o_tok o_ex o_stream].
    - now destruct (base_info fl true None z).
    - now destruct (base_info fl true None (vs v)).
    - now destruct (base_info fl true (Some (ttok z)) (tst z)).
    - reflexivity.
  Qed.
  Lemma valid_parts o : valid fl io o -> int_stream fl (o_stream o) /\ minp_file fl io (o_stream o) /\ tok_chars (o_tok o) /\
    (o_tok o <> None -> exists al, s_alphabet fl (o_stream o) = Ok al).
  Proof.
    destruct o as [z|v|z|v]; cbn [valid o_tok o_stream].
    - intros [H1 H2]. split; [exact H1|]. split; [exact H2|]. split; [exact I|]. intro X. now elim X.
    - intros [H1 H2]. split; [exact H1|]. split; [exact H2|]. split; [exact I|]. intro X. now elim X.
    - intros (H1 & H2 & H3 & al & H4). split; [exact H1|]. split; [exact H2|]. split; [exact H3|]. intros _. unfold t_alphabet in H4. apply bind_ok in H4 as (a & Ha & _). now exists a.
    - intros (H1 & H2 & H3 & al & H4). split; [exact H1|]. split; [exact H2|]. split; [exact H3|]. intros _. unfold tv_alphabet in H4. apply bind_ok in H4 as (a & Ha & _). now exists a.
  Qed.
  Lemma no_early o e : valid fl io o -> obj_info fl o <> Throw e.
  Proof.
    intros Hv Hx. destruct (valid_parts o Hv) as (_ & _ & _ & Hal).
    pose proof (obj_effect_any [] o) as E. rewrite Hx in E. cbn [save_effect] in E. rewrite effect_any_eq in E.
    destruct (alphabet_to_json fl (o_tok o) (o_stream o)) as [a|k|e'|] eqn:Ea; cbn [bind save_effect] in E; try discriminate E.
    - unfold file_effect in E. destruct (emit io 0 _) as [t []]; [|discriminate E].
      (* an exception of the dump is not one of the json value *)
      assert (G : forall o', obj_info fl o' = Throw e -> alphabet_to_json fl (o_tok o') (o_stream o') = Throw e).
      { assert (B : forall tok z, base_info fl true tok z = Throw e -> alphabet_to_json fl tok z = Throw e).
        { intros tok z H'. unfold base_info, coder_to_json, code_map in H'. cbn [bind] in H'. destruct (alphabet_to_json fl tok z); cbn [bind] in H'; try discriminate H'; now injection H' as ->. }
        intros o' H'. destruct o' as [z|v|z|v]; cbn [obj_info] in H'; try (now apply B in H'). apply B. cbn [o_tok o_stream].
        destruct (base_info fl true (Some (tvtok v)) (vs (tv v))); cbn [bind] in H'; try discriminate H'; now injection H' as ->. }
      rewrite (G o Hx) in Ea. discriminate Ea.
    - clear E Hx. unfold alphabet_to_json in Ea. destruct (the_dict fl (o_stream o)) as [[p d]|k|e''|] eqn:Hd; cbn [bind] in Ea; try discriminate Ea.
      2:{ unfold the_dict, hget, vget in Hd. destruct (zdict (o_stream o)) as [p|]; [|discriminate Hd]. destruct (nth_error (bheap (zb (o_stream o))) p) as [d|]; discriminate Hd. }
      assert (G : forall l acc e2, foldM (fun l i => w <- word_json fl (o_tok o) (o_stream o) d i ;; Ok (l ++ [w])) l acc <> Throw e2).
      { induction l as [|i l IH]; intros acc e2; [discriminate|]. cbn [foldM]. unfold word_json at 1, get, vget. destruct (nth_error (seqs d) i) as [w|] eqn:Ew; [|discriminate]. cbn [bind].
        destruct (nth_error (s_freqs fl (o_stream o)) i); [|discriminate]. cbn [bind]. destruct (o_tok o) as [tk|]; [|apply IH].
        destruct Hal as (al & Hal); [discriminate|]. unfold s_alphabet in Hal. rewrite Hd in Hal. cbn [bind] in Hal.
        destruct (decode_all_total _ _ _ Hal w (nth_error_In _ _ Ew)) as (v & ->). cbn [bind]. apply IH. }
      destruct (foldM _ _ _) as [ws|k|e2|] eqn:E; cbn [bind] in Ea; try discriminate. now apply G in E.
  Qed.

  (** ** Parts of files *)
  Lemma put_content d p t : content (put_file d p t) p = t.
  Proof. unfold content, put_file. now rewrite (proj2 (seq_eqb_iff p p) eq_refl). Qed.
  Lemma part_of n (t : text) : exists r, t = firstn n t ++ r.
  Proof. exists (skipn n t). symmetry. apply firstn_skipn. Qed.
  Lemma save_leaves d p n o d' e : valid fl io o -> disk_save fl io (Reached n) d p o = Ok (d', e) ->
    (forall file, obj_save fl io o = Ok file -> length file <= n + 1 -> same_loads fl io (content d' p) file) /\
    (forall file, obj_save fl io o = Ok file -> n + 1 < length file -> unreadable fl io (content d' p)) /\
    (forall x, obj_save fl io o = Throw x -> unreadable fl io (content d' p)) /\
    (obj_save fl io o = Throw JsonType \/ exists file, obj_save fl io o = Ok file).
  Proof.
    intros Hv H. unfold disk_save in H. destruct (obj_info fl o) as [m|k|x|] eqn:Ei; try discriminate H; [|now destruct (no_early o x Hv)].
    destruct (file_effect fl io m) as [t e'] eqn:Ef. injection H as <- <-. rewrite put_content.
    pose proof (obj_effect_any [] o) as E. rewrite Ei in E. cbn [save_effect] in E. rewrite Ef in E. symmetry in E.
    destruct (valid_parts o Hv) as (Hi & Hm & Ht & _).
    destruct (effect_agrees fl io true (o_tok o) (o_ex o) [] (o_stream o)) as (A1 & A2 & _).
    rewrite obj_save_any. destruct e' as [x|].
    - assert (x = JsonType) as -> by (unfold file_effect in Ef; destruct (emit io 0 (JObj m)) as [q []]; [now injection Ef|discriminate Ef]).
      assert (S : save_any fl io true (o_tok o) (o_ex o) (o_stream o) = Throw JsonType) by (apply A2; now exists t).
      rewrite S. split; [discriminate|]. split; [discriminate|]. split; [|now left]. intros x _.
      destruct (part_of n t) as [r Er]. apply lost_everywhere. exact (effect_lost_part _ _ _ _ _ _ _ E Hi Ht Hm Er).
    - assert (S : save_any fl io true (o_tok o) (o_ex o) (o_stream o) = Ok t) by (now apply A1).
      rewrite S. split; [|split; [|split; [discriminate|right; now exists t]]].
      + intros file [= <-] Hl. destruct (Nat.le_gt_cases (length t) n) as [Hn|Hn].
        * rewrite firstn_all2 by exact Hn. now repeat split.
        * destruct (part_of n t) as [r Er]. pose proof (firstn_length_le t (n := n) ltac:(lia)) as L1. pose proof (f_equal (@length _) Er) as L2. rewrite app_length in L2.
          destruct r as [|c [|c' r]]; cbn [length] in L2; [unfold text, seq in *; lia| |unfold text, seq in *; lia].
          pose proof (saved_newline fl io _ _ _ t _ c S Hi Ht Hm Er) as Hp. unfold same_loads, load_tstream, load_tvgram, load_stream, load_vgram, load_tokenizer, read_dict_json.
          rewrite Hp. now repeat split.
      + intros file [= <-] Hl. destruct (part_of n t) as [r Er]. pose proof (f_equal (@length _) Er) as L2. rewrite app_length in L2.
        pose proof (firstn_le_length n t) as L1. apply lost_everywhere. refine (saved_cut fl io _ _ _ t _ r S Hi Ht Hm Er _). unfold text, seq in *. lia.
  Qed.

  (** ** Histories *)
  Lemma save_other f d p o d' e q : disk_save fl io f d p o = Ok (d', e) -> (q = p -> f = Unopened) -> d' q = d q.
  Proof.
    unfold disk_save. destruct (obj_info fl o) as [m|k|x|]; try discriminate; [|now intros [= <- _]]. destruct (file_effect fl io m) as [t e']. intros [= <- _] Hq.
    destruct f as [|n]; [easy|]. unfold put_file. destruct (seq_eqb q p) eqn:E; [|easy]. apply seq_eqb_iff in E. discriminate (Hq E).
  Qed.
  Lemma dhist_split d0 evs2 : forall evs1 d, dhist fl io d0 (evs1 ++ evs2) d -> exists d1, dhist fl io d0 evs1 d1 /\ dhist fl io d1 evs2 d.
  Proof.
    induction evs2 as [|ev evs2 IH] using rev_ind; intros evs1 d H.
    - rewrite app_nil_r in H. exists d. split; [exact H|constructor].
    - rewrite app_assoc in H. inversion H as [E|evs d1 f p o d' e H1 Hs E E']; subst; [now destruct (evs1 ++ evs2)|].
      apply app_inj_tail in E as [-> <-]. destruct (IH _ _ H1) as (d2 & A & B). exists d2. split; [exact A|]. now apply (dh_step fl io d2 evs2 d1 f p o d e).
  Qed.
  Lemma dhist_untouched d0 evs d p : dhist fl io d0 evs d -> untouched fl p evs -> d p = d0 p.
  Proof.
    induction 1 as [|evs d f q o d' e H IH Hs]; intro U; [reflexivity|]. rewrite (save_other _ _ _ _ _ _ p Hs).
    - apply IH. intros f' q' o' Hi. apply (U f' q' o'). apply in_or_app. now left.
    - intros ->. apply (U f q o); [|reflexivity]. apply in_or_app. right. now left.
  Qed.
  Lemma content_eq (d d' : disk) p : d p = d' p -> content d p = content d' p.
  Proof. unfold content. now intros ->. Qed.

  Lemma disk_left d0 evs1 n p o evs2 d : dhist fl io d0 (evs1 ++ Save (Reached n) p o :: evs2) d -> valid fl io o -> untouched fl p evs2 ->
    (forall file, obj_save fl io o = Ok file -> length file <= n + 1 -> same_loads fl io (content d p) file) /\
    (forall file, obj_save fl io o = Ok file -> n + 1 < length file -> unreadable fl io (content d p)) /\
    (forall x, obj_save fl io o = Throw x -> unreadable fl io (content d p)) /\
    (obj_save fl io o = Throw JsonType \/ exists file, obj_save fl io o = Ok file).
  Proof.
    intros H Hv U. change (Save (Reached n) p o :: evs2) with ([Save (Reached n) p o] ++ evs2) in H. rewrite app_assoc in H.
    destruct (dhist_split _ _ _ _ H) as (d1 & A & B). inversion A as [E|evs d2 f q o' d' e A1 Hs E E']; subst; [now destruct evs1|].
    apply app_inj_tail in E as [-> [= -> -> ->]]. rewrite (content_eq _ _ _ (dhist_untouched _ _ _ p B U)). exact (save_leaves _ _ _ _ _ _ Hv Hs).
  Qed.
  Lemma disk_kept d0 evs d p : dhist fl io d0 evs d -> untouched fl p evs -> content d p = content d0 p.
  Proof. intros H U. apply content_eq. exact (dhist_untouched _ _ _ p H U). Qed.
  Lemma missing (d : disk) p : d p = None -> unreadable fl io (content d p).
  Proof. intro H. unfold content. rewrite H. apply lost_everywhere. reflexivity. Qed.

  (** Nobody can tell from the call. *)
  Lemma silent f f' d d' p p' o r e : disk_save fl io f d p o = Ok (r, e) -> exists r', disk_save fl io f' d' p' o = Ok (r', e).
  Proof.
    unfold disk_save. destruct (obj_info fl o) as [m|k|x|]; try discriminate; [|intros [= _ <-]; now exists d'].
    destruct (file_effect fl io m) as [t x]. intros [= _ <-]. eexists. reflexivity.
  Qed.
  Lemma agrees f d p o r e : disk_save fl io f d p o = Ok (r, e) -> match e with None => exists file, obj_save fl io o = Ok file | Some x => obj_save fl io o = Throw x end.
  Proof.
    unfold disk_save. intro H. rewrite obj_save_any. destruct (effect_agrees fl io true (o_tok o) (o_ex o) [] (o_stream o)) as (A1 & A2 & _).
    pose proof (obj_effect_any [] o) as E. destruct (obj_info fl o) as [m|k|x|]; try discriminate H; cbn [save_effect] in E.
    - destruct (file_effect fl io m) as [t x]. injection H as _ <-. destruct x as [x|]; [apply A2; now exists t|exists t; now apply A1].
    - injection H as _ <-. apply A2. now exists [].
  Qed.
End D.
