(** Proofs for C75. *)
From Verif Require Import Base FloatOps FloatLaws DictProofs ModelDict ModelCoder ModelTok Maps ModelStat ModelBuilder ModelStream ModelVGram ModelString ModelJson ModelPersist ModelPy
  SpecStat SpecBuilder SpecStream SpecVGram SpecInterrupt SpecPy PropsVGramLemmas VGramProofs StreamProofs.

Section P.
  Context (fl : fops).
  Definition deaf (o : pyobj fl) : Prop := match o with PyInt c _ | PyStr c _ => c = ClassIntVGram end.
  Lemma start_deaf o : no_constructed_int fl o -> deaf o.
  Proof.
    intros [size iter|io file o' H|io file o' H]; [reflexivity| |]; [unfold py_load_str in H|unfold py_load_int in H]; apply bind_ok in H as (v & _ & H); now injection H as <-.
  Qed.
  Lemma call_deaf w o k a o' : deaf o -> py_call fl w o k = Ok (a, o') -> deaf o' /\ py_call fl (quiet fl w) o k = Ok (a, o').
  Proof.
    destruct o as [c v|c v]; cbn [deaf]; intros -> H; destruct k as [xs|xs|xs|xs]; cbn [py_call] in *; try discriminate H.
    - split; [|exact H]. apply bind_ok in H as ([b v'] & _ & H). now injection H as _ <-.
    - split; [|exact H]. apply bind_ok in H as ([b v'] & _ & H). now injection H as _ <-.
    - split; [|exact H]. apply bind_ok in H as (v' & _ & H). now injection H as _ <-.
    - split; [|exact H]. apply bind_ok in H as ([b v'] & _ & H). now injection H as _ <-.
  Qed.
  Lemma life_deaf o0 log o : no_constructed_int fl o0 -> pylife fl o0 log o -> pylife fl o0 (map (no_signals fl) log) o.
  Proof.
    intros H0 H. apply start_deaf in H0.
    assert (G : deaf o /\ pylife fl o0 (map (no_signals fl) log) o); [|apply G].
    induction H as [|log o w k a o' H [I1 I2] Hc]; [split; [exact H0|constructor]|]. destruct (call_deaf _ _ _ _ _ I1 Hc) as [D E]. split; [exact D|].
    rewrite map_app. exact (py_step fl o0 _ o (quiet fl w) k a o' I2 E).
  Qed.

  Lemma fit_texts_kind w size iter xs a o : py_call fl w (py_str fl size iter) (PyFitTexts xs) = Ok (a, o) -> exists c v, o = PyStr c v.
  Proof. unfold py_str. cbn [py_call]. intro E. apply bind_ok in E as (v' & _ & E). injection E as _ <-. now do 2 eexists. Qed.

  (** A constructed IntVGram is a PyIntVGram for life, and signals reach it. *)
  Lemma built_class size iter log o : pylife fl (py_int fl size iter) log o -> exists v, o = PyInt ClassPyIntVGram v.
  Proof.
    induction 1 as [|log o w k a o' H (v & ->) Hc]; [now eexists|]. destruct k as [xs|xs|xs|xs]; cbn [py_call] in Hc; try discriminate Hc.
    - apply bind_ok in Hc as ([b v'] & _ & Hc). injection Hc as _ <-. now exists v'.
    - apply bind_ok in Hc as ([b v'] & _ & Hc). injection Hc as _ <-. now exists v'.
  Qed.
  Lemma heard_same w : heard fl ClassPyIntVGram w = mkWorld (w_rand w) (w_term w) (w_env w).
  Proof. reflexivity. Qed.
  Lemma world_eta (w : world fl) : mkWorld (w_rand w) (w_term w) (w_env w) = w.
  Proof. now destruct w. Qed.
  Lemma built_stops (L : flaws fl) size N iter w xs k : normal fl N (sampling fl w xs (Z.to_nat iter)) -> roomy fl size (sampling fl w xs (Z.to_nat iter)) ->
    k < Z.to_nat iter * length xs -> first_signal fl w k ->
    exists v a b, py_call fl w (py_int fl size iter) (PyFit xs) = Ok (PyNull, PyInt ClassPyIntVGram v) /\ vfitted v = false /\
      sampling fl w xs (Z.to_nat iter) = a ++ draw fl w xs k :: b /\ shist fl (new_stream fl size) (a ++ [draw fl w xs k]) (vs v).
  Proof.
    intros Hn Hr Hk [Hu Ht].
    assert (H0 : shist fl (new_stream fl size) [] (vs (new_vgram fl size iter))) by constructor.
    destruct (interruption fl L size N [] w (new_vgram fl size iter) xs k eq_refl H0 Hn Hr Hk Ht) as (v & E).
    destruct (fit_interrupted fl w (new_vgram fl size iter) xs v E) as (_ & Hf & _ & a & b & k' & Es & Hk' & Hkt & Hku & Hs).
    assert (k' = k) as ->. { destruct (Nat.lt_trichotomy k' k) as [C|[C|C]]; [rewrite (Hu _ C) in Hkt; discriminate|exact C|rewrite (Hku _ C) in Ht; discriminate]. }
    exists v, a, b. split; [|split; [exact Hf|split; [exact Es|exact Hs]]].
    unfold py_int. cbn [py_call]. rewrite heard_same, world_eta, E. reflexivity.
  Qed.
End P.
