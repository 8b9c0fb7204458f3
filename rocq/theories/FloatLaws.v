(** FloatLaws: what the parsing proofs need from `double` arithmetic.
    [fok n x]: x can be the sum of n log-probabilities; [fwt w]: w can be a log-probability.
    Proved for IEEE binary64 in FloatIEEE.v. *)
From Verif Require Import Base FloatOps.
Local Open Scope Z_scope.

Definition maxlen : Z := 2 ^ 40.
Definition maxcount : Z := 2 ^ 53.

Record flaws (fl : fops) := {
  fok : Z -> F fl -> Prop;
  fwt : F fl -> Prop;
  ok_zero : fok 0 (fofZ fl 0);
  ok_add : forall n x w, 0 <= n < maxlen -> fok n x -> fwt w -> fok (n + 1) (fadd fl x w);
  ok_mono : forall n m x, 0 <= n <= m -> m <= maxlen -> fok n x -> fok m x;
  low_ok : forall n x, 0 <= n <= maxlen -> fok n x -> fltb fl (flowest fl) x = true;
  low_low : forall w, fwt w -> fltb fl (flowest fl) (fadd fl (flowest fl) w) = false;
  ok_low : forall n x w, 0 <= n <= maxlen -> fok n x -> fwt w ->
    fltb fl x (fadd fl (flowest fl) w) = false;
  ok_irrefl : forall n x, 0 <= n <= maxlen -> fok n x -> fltb fl x x = false;
  ok_asym : forall n x y, 0 <= n <= maxlen -> fok n x -> fok n y ->
    fltb fl x y = true -> fltb fl y x = false;
  ok_trans : forall n x y z, 0 <= n <= maxlen -> fok n x -> fok n y -> fok n z ->
    fltb fl y x = false -> fltb fl z y = false -> fltb fl z x = false;
  ok_add_mono : forall n x y w, 0 <= n < maxlen -> fok n x -> fok n y -> fwt w ->
    fltb fl y x = false -> fltb fl (fadd fl y w) (fadd fl x w) = false;
  (* totals: [fcnt t] is a sum of counts, however long; [ftot t] is what a parse is given *)
  fcnt : F fl -> Prop;
  ftot : F fl -> Prop;
  cnt_ofZ : forall z, 0 <= z <= maxcount -> fcnt (fofZ fl z);
  cnt_add : forall t z, fcnt t -> 0 <= z <= maxcount -> fcnt (fadd fl t (fofZ fl z));
  tot_ofZ : forall z, 0 <= z <= maxcount -> ftot (fofZ fl z);
  tot_add : forall s t, fcnt s -> fcnt t -> ftot (fadd fl s t);
  wt_tot : forall a t n, 1 <= a <= maxcount -> ftot t -> 1 <= n <= maxcount ->
    fwt (fsub fl (flog fl (fofZ fl a)) (flog fl (fadd fl t (fofZ fl n))));
  wt_tot0 : forall t n, ftot t -> 1 <= n <= maxcount ->
    fwt (fsub fl (fofZ fl 0) (flog fl (fadd fl t (fofZ fl n))));
  ofZ_add : forall a b, 0 <= a -> 0 <= b -> a + b <= maxcount ->
    fadd fl (fofZ fl a) (fofZ fl b) = fofZ fl (a + b);
  ofZ_lt : forall a b, 0 <= a <= maxcount -> 0 <= b <= maxcount ->
    (fltb fl (fofZ fl a) (fofZ fl b) = true <-> a < b);
  (* comparison of arbitrary doubles *)
  lt_irrefl : forall x, fltb fl x x = false;
  lt_asym : forall x y, fltb fl x y = true -> fltb fl y x = false;
  le_trans : forall x y z, fnan fl y = false ->
    fltb fl y x = false -> fltb fl z y = false -> fltb fl z x = false;
  lt_num : forall x y, fltb fl x y = true -> fnan fl x = false /\ fnan fl y = false;
  neg_lt : forall x y, fltb fl (fneg fl x) (fneg fl y) = fltb fl y x;
  max_num : fnan fl (fmax fl) = false /\ fltb fl (fmax fl) (fofZ fl 0) = false;
  (* magnitudes: [fmag m x] bounds |x| by m units; a unit exceeds any x*log(x) of counts *)
  fmag : Z -> F fl -> Prop;
  mag_zero : fmag 0 (fofZ fl 0);
  mag_mono : forall m n x, m <= n -> fmag m x -> fmag n x;
  mag_add : forall m n x y, 0 <= m -> 0 <= n -> m + n <= maxcount -> fmag m x -> fmag n y ->
    fmag (m + n) (fadd fl x y);
  mag_sub : forall m n x y, 0 <= m -> 0 <= n -> m + n <= maxcount -> fmag m x -> fmag n y ->
    fmag (m + n) (fsub fl x y);
  mag_xlogx : forall a, 1 <= a <= maxcount -> fmag 1 (fmul fl (fofZ fl a) (flog fl (fofZ fl a)));
  mag_divmul : forall m c x, 0 <= m -> 2 * m + 1 <= maxcount -> 1 <= c <= maxcount -> fmag m x ->
    fmag (2 * m + 1) (fmul fl (fdiv fl x (fofZ fl c)) (fofZ fl c));
  mag_num : forall m x, m <= maxcount -> fmag m x -> fnan fl x = false /\ fltb fl x (fmax fl) = true;
  (* quotients and the literals 0.002 and 1.3 *)
  div_num : forall a t n, 0 <= a < maxcount -> fcnt t -> 1 <= n <= maxcount ->
    fnan fl (fdiv fl (fadd fl (fofZ fl a) (fofZ fl 1)) (fadd fl t (fofZ fl n))) = false;
  inv_num : forall n, 0 <= n <= maxcount -> fnan fl (fdiv fl (fofZ fl 1) (fofZ fl n)) = false;
  lit_num : fnan fl (flit fl 2 1000) = false;
  ext_trunc : forall n, 0 <= n <= maxcount ->
    fltb fl (fmul fl (fofZ fl n) (flit fl 13 10)) (fofZ fl 10) = false ->
    0 <= ftrunc fl (fmul fl (fofZ fl n) (flit fl 13 10))
}.
