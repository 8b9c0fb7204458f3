(** Proofs for C63. *)
From Verif Require Import Base Maps ModelTok SpecTok TokProofs StringProofs TextPersist SpecString SpecExtra.
Local Open Scope Z_scope.

Lemma tokens_unique k s ws ws' : tokens_of k s ws -> tokens_of k s ws' -> ws = ws'.
Proof.
  destruct k; cbn [tokens_of]; [|congruence]. intros (n & Hn & ->) (n' & Hn' & ->). f_equal. revert n' Hn'. induction Hn as [|c l s r Hk H IH|c s r Hk H IH]; intros n' Hn'.
  - now inversion Hn'.
  - inversion Hn' as [|c' l' s' r' Hk' H'|c' s' r' Hk' H']; subst.
    + f_equal; [|now apply IH]. apply (mfind_nodup _ Zeqb_iff _ _ _ kept_nodup) in Hk, Hk'. congruence.
    + now elim (Hk' l).
  - inversion Hn' as [|c' l' s' r' Hk' H'|c' s' r' Hk' H']; subst; [now elim (Hk l')|now apply IH].
Qed.
Lemma issued_known k t g : issued (new_tok k) t g -> tok_ok t /\ tkind t = k /\ forall w i, In (w, i) g <-> mfind seq_eqb (tfwd t) w = Some i.
Proof.
  induction 1 as [|t g s ids t' ws H (IH & Ek & IHg) E Hw]; [split; [apply tok_ok_new|]; now split|].
  destruct (transform_coded _ _ _ _ IH E) as (ws' & Hws' & H1 & H2 & H3). destruct H2 as [Ek' Hx]. cbn [tkind new_tok] in Hw. rewrite Ek in Hws'.
  rewrite (tokens_unique _ _ _ _ Hws' Hw) in *. split; [exact H1|]. split; [congruence|]. intros w i. rewrite in_app_iff. split.
  - intros [Hg|Hg]; [apply Hx, IHg, Hg|]. clear -H3 Hg. induction H3 as [|u j us js Hu Hs IHs]; [easy|]. destruct Hg as [[= -> ->]|Hg]; [exact Hu|now apply IHs].
  - intro Hg. destruct (transform_only _ _ _ _ IH E w i Hg) as [G|(us & G1 & G2)]; [left; now apply IHg|right]. rewrite Ek in G1. rewrite (tokens_unique _ _ _ _ G1 Hw) in G2.
    clear -H3 Hg G2. induction H3 as [|u j us js Hu Hs IHs]; [easy|]. destruct G2 as [->|G2]; [left; congruence|right; now apply IHs].
Qed.
Lemma decode_issued k t g : issued (new_tok k) t g ->
  (forall u v, tok_decode t (u ++ v) = tok_decode t u ++ tok_decode t v) /\
  (forall w i, In (w, i) g -> tok_decode t [i] = w) /\ forall i, ~ In i (map snd g) -> tok_decode t [i] = [].
Proof.
  intro H. destruct (issued_known _ _ _ H) as ((_ & Hb & _) & _ & Hg). split; [|split].
  - intros u v. induction u as [|i u IH]; [easy|]. cbn [tok_decode app]. destruct (mfind Z.eqb (tbwd t) i); [rewrite IH; apply app_assoc|exact IH].
  - intros w i Hi. apply Hg, Hb in Hi. cbn [tok_decode]. rewrite Hi. apply app_nil_r.
  - intros i Hi. cbn [tok_decode]. destruct (mfind Z.eqb (tbwd t) i) as [w|] eqn:E; [|easy]. apply Hb, Hg in E. elim Hi. apply in_map_iff. now exists (w, i).
Qed.
