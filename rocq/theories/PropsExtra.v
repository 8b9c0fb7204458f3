(** Properties from C63 on. *)
From Coq Require Import Ascii String.
From Verif Require Import Base Spec FloatOps FloatLaws FloatIEEE FloatExample ModelDict Maps ModelTok ModelCoder ModelStat ModelBuilder ModelStream ModelVGram
  SpecStat SpecBuilder SpecTok EnvExample StreamRuns VGramRuns PropsStreamLemmas PropsVGramLemmas SpecStream SpecVGram SpecString SpecExtra ExtraProofs ExtraRuns RenameProofs PropsExtraLemmas.

(** C63: [issued t0 t g]: [t] is [t0] after some transform calls, and [g] are the tokens with the ids they were given. *)
Theorem C63_decode_issued : forall k t g, issued (new_tok k) t g ->
  (forall u v, tok_decode t (u ++ v) = tok_decode t u ++ tok_decode t v) /\
  (forall w i, In (w, i) g -> tok_decode t [i] = w) /\ forall i, ~ In i (map snd g) -> tok_decode t [i] = [].
Proof. exact decode_issued. Qed.
Print Assumptions C63_decode_issued.

Example C63_case : exists t, issued (new_tok WordTok) t [(txt "to", 0); (txt "be", 1); (txt "or", 2); (txt "be", 1)]%Z /\
  tok_decode t [2; 7; -1; 0; 0]%Z = txt "ortoto".
Proof.
  eexists. split.
  - change [(txt "to", 0); (txt "be", 1); (txt "or", 2); (txt "be", 1)]%Z with
      (([] ++ combine [txt "to"; txt "be"] [0; 1]%Z) ++ combine [txt "or"; txt "be"] [2; 1]%Z).
    eapply is_step with (s := txt "or be"); [eapply is_step with (s := txt "to be"); [apply is_new| |]| |]; vm_compute; reflexivity.
  - vm_compute. reflexivity.
Qed.

(** C64: once the builder of a loaded stream has made a reduction, an update leaves only words of one symbol. *)
Theorem C64_forgets : forall fl, flaws fl -> forall N syms c freqs ws size mp z0, (0 <= N <= 2 ^ 40)%Z ->
  loadable fl N syms c freqs ws mp -> loaded_stream fl c freqs ws size mp = Ok z0 -> forall a z1 e s z2 b z z' al,
  shist fl z0 a z1 -> s_accept fl e z1 s = Ok z2 -> reduced fl (zb z1) (zb z2) -> shist fl z2 b z ->
  normal fl N (a ++ SAccept e s :: b ++ [SUpdate]) -> roomy_loaded fl syms ws (a ++ SAccept e s :: b) ->
  s_update fl z = Ok z' -> s_alphabet fl z' = Ok al -> Forall (fun w : seq => length w = 1) al.
Proof. exact loaded_forgets. Qed.
Print Assumptions C64_forgets.

Theorem C64_double : forall lg, log_ok lg -> forall N syms c freqs ws size mp z0, (0 <= N <= 2 ^ 40)%Z ->
  loadable (ieee lg) N syms c freqs ws mp -> loaded_stream (ieee lg) c freqs ws size mp = Ok z0 -> forall a z1 e s z2 b z z' al,
  shist (ieee lg) z0 a z1 -> s_accept (ieee lg) e z1 s = Ok z2 -> reduced (ieee lg) (zb z1) (zb z2) -> shist (ieee lg) z2 b z ->
  normal (ieee lg) N (a ++ SAccept e s :: b ++ [SUpdate]) -> roomy_loaded (ieee lg) syms ws (a ++ SAccept e s :: b) ->
  s_update (ieee lg) z = Ok z' -> s_alphabet (ieee lg) z' = Ok al -> Forall (fun w : seq => length w = 1) al.
Proof. intros lg Hlg. exact (loaded_forgets (ieee lg) (ieee_laws lg Hlg)). Qed.
Print Assumptions C64_double.

(** The words 5, 58 and 8 are loaded for size 100, and 58 is accepted over and over. The word 58 is gone. *)
Theorem C64_refuted_keeps : exists z0 z1 z2 z3, loaded_stream exf twice_coder [3; 2; 0]%Z [[0]; [1]; [0; 1]]%Z 100 (flit exf 2 1000) = Ok z0 /\
  s_alphabet exf z0 = Ok [[5]; [5; 8]; [8]]%Z /\
  s_accept exf exenv z0 twice_text = Ok z1 /\ s_accept exf exenv z1 twice_text = Ok z2 /\ reduced exf (zb z1) (zb z2) /\
  s_update exf z2 = Ok z3 /\ s_alphabet exf z3 = Ok [[5]; [8]]%Z.
Proof. exact forgotten. Qed.
Print Assumptions C64_refuted_keeps.

Example C64_case : loadable exf 2380 [5; 8]%Z twice_coder [3; 2; 0]%Z [[0]; [1]; [0; 1]]%Z (flit exf 2 1000) /\
  normal exf 2380 (twice_ops ++ [SUpdate]) /\ roomy_loaded exf [5; 8]%Z [[0]; [1]; [0; 1]]%Z twice_ops.
Proof. exact (conj twice_file (conj twice_normal twice_roomy)). Qed.

(** C65: the frequencies of a stream add up to at most the number of symbols it has accepted, and the total it keeps is
    their sum; below 2^31 symbols none of these ints can overflow. *)
Theorem C65_total : forall fl, flaws fl -> forall size N ops z, shist fl (new_stream fl size) ops z -> normal fl N ops -> roomy fl size ops ->
  calm fl [] (new_stream fl size) ops ->
  ztotal z = zsum (s_freqs fl z) /\ (zsum (s_freqs fl z) <= Z.of_nat (length (seen fl ops)))%Z /\
  Forall (fun f => 0 <= f <= Z.of_nat (length (seen fl ops)))%Z (s_freqs fl z).
Proof. exact fresh_total. Qed.
Print Assumptions C65_total.

Theorem C65_double : forall lg, log_ok lg -> forall size N ops z, shist (ieee lg) (new_stream (ieee lg) size) ops z -> normal (ieee lg) N ops ->
  roomy (ieee lg) size ops -> calm (ieee lg) [] (new_stream (ieee lg) size) ops ->
  ztotal z = zsum (s_freqs (ieee lg) z) /\ (zsum (s_freqs (ieee lg) z) <= Z.of_nat (length (seen (ieee lg) ops)))%Z /\
  Forall (fun f => 0 <= f <= Z.of_nat (length (seen (ieee lg) ops)))%Z (s_freqs (ieee lg) z).
Proof. intros lg Hlg. exact (fresh_total (ieee lg) (ieee_laws lg Hlg)). Qed.
Print Assumptions C65_double.

Theorem C65_loaded : forall fl, flaws fl -> forall N syms c freqs ws size mp z0, (0 <= N <= 2 ^ 40)%Z -> loadable fl N syms c freqs ws mp ->
  loaded_stream fl c freqs ws size mp = Ok z0 -> forall ops z, shist fl z0 ops z -> normal fl N ops -> roomy_loaded fl syms ws ops ->
  calm fl syms z0 ops ->
  ztotal z = zsum (s_freqs fl z) /\ (zsum (s_freqs fl z) <= zsum freqs + Z.of_nat (length (seen fl ops)))%Z /\
  Forall (fun f => 0 <= f <= zsum freqs + Z.of_nat (length (seen fl ops)))%Z (s_freqs fl z).
Proof. exact loaded_total. Qed.
Print Assumptions C65_loaded.

(** The bound is reached. *)
Example C65_case : (exists z, shist exf (new_stream exf 10) small_ops z /\ normal exf 10 small_ops /\ roomy exf 10 small_ops /\
    calm exf [] (new_stream exf 10) small_ops /\ zsum (s_freqs exf z) = Z.of_nat (length (seen exf small_ops))) /\
  loadable exf 10 [5; 8]%Z (mkCoder [(8, 1); (5, 0)] [(0, 5); (1, 8)])%Z [3; 2; 0]%Z [[0]; [1]; [0; 1]]%Z (flit exf 2 1000).
Proof.
  split; [|exact loadable_case]. destruct small_case as (z & H & Hn & Hr & _ & _ & Hf & Hc & _). exists z.
  split; [exact H|]. split; [exact Hn|]. split; [exact Hr|]. split; [exact Hc|]. rewrite Hf. reflexivity.
Qed.

(** C66: only the pattern of equal symbols matters. If the symbols of all calls are renamed one to one, the same calls come
    back, and every later call gives the same result, with the words of the alphabet renamed. [through] is the outcome
    with its result seen through a function. *)
Theorem C66_renamed : forall f : Z -> Z, (forall x y, f x = f y -> x = y) -> forall fl size ops z, shist fl (new_stream fl size) ops z ->
  exists z', shist fl (new_stream fl size) (map (renamed_op f) ops) z' /\ same_answers f z z'.
Proof. exact renamed_stream. Qed.
Print Assumptions C66_renamed.

Theorem C66_vgram : forall f : Z -> Z, (forall x y, f x = f y -> x = y) -> forall fl size iter ks v, vlife fl (new_vgram fl size iter) ks v ->
  exists v', vlife fl (new_vgram fl size iter) (map (renamed_call f) ks) v' /\ same_answers f (vs v) (vs v') /\
    (forall w xs, through fst (fit fl w v' (map (map f) xs)) = through fst (fit fl w v xs)) /\
    (forall w xs, through fst (transform fl w v' (map (map f) xs)) = through fst (transform fl w v xs)).
Proof. exact renamed_vgram. Qed.
Print Assumptions C66_vgram.

(** A stream, renamed by x -> 100 - x, and a fit. If two symbols get the same name, the answers do change. *)
Example C66_case : (exists z, shist exf (new_stream exf 10) (map (renamed_op (fun x => 100 - x)) small_ops)%Z z /\
    s_alphabet exf z = Ok [[95]; [92]]%Z /\ s_freqs exf z = [3; 2]%Z) /\
  (exists v, vlife exf (new_vgram exf 10 1) [VFit (listed [0; 1]%Z 100) [[1; 2; 1]; [2]]%Z] v /\ s_freqs exf (vs v) = [2; 2]%Z) /\
  exists z, shist exf (new_stream exf 10) (map (renamed_op (fun x => 0)) small_ops)%Z z /\ s_freqs exf z = [5]%Z.
Proof.
  split; [|split].
  - destruct small_case as (z & H & _ & _ & _ & Ha & Hf & _).
    assert (Hi : forall x y : Z, (100 - x = 100 - y)%Z -> x = y) by (intros; lia).
    destruct (renamed_stream (fun x => 100 - x)%Z Hi exf 10 small_ops z H) as (z' & H' & E1 & E2 & _). exists z'.
    split; [exact H'|]. split; [rewrite E2, Ha; reflexivity|rewrite E1; exact Hf].
  - destruct (sight_ok _ _ _ _ _ run_plain) as (v & H1 & _ & H3 & _). exists v. split; [|exact H3].
    refine (vl_step exf _ [] _ _ v (vl_nil exf _) _). exists true. exact H1.
  - destruct (look_ok _ _ _ _ small_merged) as (z & H & _ & Hf). exists z. split; [exact H|exact Hf].
Qed.
