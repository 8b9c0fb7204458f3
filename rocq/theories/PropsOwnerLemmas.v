(** PropsOwnerLemmas: the statements of C94. *)
From Verif Require Import Base ModelOwner SpecOwner OwnerProofs.
Set Implicit Arguments.

Lemma gone_when ps o a : orun nothing ps = Fine o -> charges 0 ps a <= 1 ->
  count_occ Nat.eq_dec (gone o) a <= 1 /\ (In a (gone o) <-> charges 0 ps a = 1 /\ ~ held ps a).
Proof.
  intros E L. pose proof (once _ a E) as O. split; [lia|]. rewrite (count_occ_In Nat.eq_dec). split.
  - intros I. split; [lia|]. intros H. apply (held_there _ _ E L H). now apply (count_occ_In Nat.eq_dec).
  - intros [C N]. rewrite (unheld_gone _ _ E N). lia.
Qed.

Lemma twice_bad ps a : written ps -> 2 <= charges 0 ps a -> ~ held ps a ->
  exists m, orun nothing ps = Bad m /\ m <> NoSuch.
Proof.
  intros W L N. destruct (twice _ _ L N) as [m E]. exists m. split; [exact E|]. eapply no_such; eassumption.
Qed.

Lemma py_state ps o : orun nothing ps = Fine o ->
  orun o (py_load_stream o) =
    Fine (mkOwn (cells o ++ [false]) (blocks o ++ [(length (cells o), 0); (length (cells o), 1)])
            (hands o ++ [None; Some (S (length (blocks o)))]) (gone o ++ [length (cells o)])).
Proof.
  intros E. unfold py_load_stream. cbn [orun ostep cells blocks hands gone].
  rewrite app_length. cbn [length]. replace (length (cells o) <? length (cells o) + 1) with true by (symmetry; apply Nat.ltb_lt; lia).
  cbn [orun ostep]. unfold block_of. cbn [hands blocks]. rewrite (nth_old _ _ _ (nth_last (hands o) (Some (length (blocks o))))).
  rewrite (nth_old _ _ _ (nth_last (blocks o) (length (cells o), 1))). cbn [Nat.eqb pred]. unfold delete. cbn [cells blocks hands gone].
  rewrite nth_last. f_equal.
  assert (P : forall A (l r : list A) x y, put ((l ++ [x]) ++ r) (length l) y = (l ++ [y]) ++ r).
  { intros A l r x y. induction l as [|z l IH]; cbn; [reflexivity|]. now rewrite IH. }
  pose proof (P _ (cells o) [] true false) as P1. rewrite !app_nil_r in P1. rewrite P1, !P, app_length. cbn [length].
  rewrite <- !app_assoc, Nat.add_1_r. reflexivity.
Qed.

Lemma nth_two {A} (l : list A) x y : nth_error (l ++ [x; y]) (S (length l)) = Some y.
Proof. rewrite nth_error_app2 by lia. replace (S (length l) - length l) with 1 by lia. reflexivity. Qed.

(** The Python object that load of a stream class returns: every use and its end are undefined. *)
Lemma py_stream_bad ps o : orun nothing ps = Fine o ->
  orun nothing (ps ++ py_load_stream o ++ [OUse (S (length (hands o)))]) = Bad (UsedDeleted (length (cells o))) /\
  orun nothing (ps ++ py_load_stream o ++ [ODrop (S (length (hands o)))]) = Bad (DeletedTwice (length (cells o))).
Proof.
  intros E. assert (R : forall qs rs o1, orun o1 (qs ++ rs) = match orun o1 qs with Fine o2 => orun o2 rs | Bad m => Bad m end).
  { induction qs as [|q qs IH]; intros rs o1; cbn; [reflexivity|]. destruct (ostep o1 q); [apply IH|reflexivity]. }
  split; rewrite R, E, R, (py_state _ E); cbn [orun ostep]; unfold block_of; cbn [hands blocks]; rewrite !nth_two.
  - unfold touch. cbn [cells]. now rewrite nth_last.
  - cbn [Nat.eqb]. unfold delete. cbn [cells]. now rewrite nth_last.
Qed.

Lemma rev_case {A} (w : list A) : w = [] \/ exists v x, w = v ++ [x].
Proof. destruct w as [|y w]; [now left|]. right. destruct (exists_last (l := y :: w)) as (v & x & E); [discriminate|]. eauto. Qed.

(** Programs that can be written stay so when one more call is possible. *)
Lemma written_snoc ps p : written ps -> can (seen ps) p -> written (ps ++ [p]).
Proof.
  intros W C u q w E. destruct (rev_case w) as [->|(v & x & ->)].
  - apply app_inj_tail in E as [<- <-]. exact C.
  - change (ps ++ [p] = u ++ (q :: v) ++ [x]) in E. rewrite app_assoc in E. apply app_inj_tail in E as [E _].
    eapply W. exact E.
Qed.

(** load of the other classes: a hand of its own, alone in charge. *)
Lemma py_vgram ps o : orun nothing ps = Fine o -> written ps -> one_charge ps -> calls_held ps ->
  let qs := ps ++ py_load_vgram o in
  written qs /\ one_charge qs /\ calls_held qs /\ nth_error (snd (seen qs)) (length (hands o)) = Some (length (cells o), true).
Proof.
  intros E W On Ca qs. pose proof (owned_run _ E) as Ow. unfold qs, py_load_vgram.
  assert (Q : ps ++ [ONew; OHand (length (cells o))] = (ps ++ [ONew]) ++ [OHand (length (cells o))]) by now rewrite <- app_assoc.
  rewrite Q. pose proof (ow_made Ow) as M. split; [|split; [|split]].
  - apply written_snoc; [apply written_snoc; [exact W|exact I]|]. cbn. rewrite seen_snoc. destruct (seen ps). cbn in *. lia.
  - intros a. rewrite !charges_snoc. cbn. destruct (Nat.eqb_spec (length (cells o)) a) as [<-|]; cbn; [|specialize (On a); lia].
    pose proof (ow_charge Ow (length (cells o))) as C. pose proof (ow_gone Ow (length (cells o))) as G.
    rewrite (ow_new Ow) in G by lia.
    assert (Z : cnt (at_ (length (cells o))) (blocks o) = 0).
    { unfold cnt. replace (filter (at_ (length (cells o))) (blocks o)) with (@nil (nat * nat)); [reflexivity|]. symmetry.
      assert (H : forall x, In x (blocks o) -> at_ (length (cells o)) x = false).
      { intros [c n] I0. destruct (In_nth_error _ _ I0) as [b Eb]. destruct (ow_count Ow _ Eb) as [_ L]. unfold at_. cbn. apply Nat.eqb_neq. lia. }
      clear C G. induction (blocks o) as [|x l IH]; [reflexivity|]. cbn. rewrite H by now left. apply IH. intros y Iy. apply H. now right. }
    lia.
  - intros u a w Eq. destruct (rev_case w) as [->|(v & x & ->)]; [now apply app_inj_tail in Eq as [_ Eq]|].
    change (OCall a :: v ++ [x]) with ((OCall a :: v) ++ [x]) in Eq. rewrite (app_assoc u) in Eq. apply app_inj_tail in Eq as [Eq _].
    destruct (rev_case v) as [->|(v' & x' & ->)]; [now apply app_inj_tail in Eq as [_ Eq]|].
    change (OCall a :: v' ++ [x']) with ((OCall a :: v') ++ [x']) in Eq. rewrite (app_assoc u) in Eq. apply app_inj_tail in Eq as [Eq _].
    eapply Ca. exact Eq.
  - rewrite !seen_snoc. pose proof (ow_len Ow) as L. destruct (seen ps) as [n l]. cbn in *. rewrite L. apply nth_last.
Qed.
