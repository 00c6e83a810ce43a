(** * band.Checksum(), all_multipliers.py:389-393.

    GDAL's GDALChecksumImage (alg/gdalchecksum.cpp) on one band that is not
    complex, for the two types clip_dataset makes (all_multipliers.py:344-347). *)
From Verif Require Import Base ReprModel ConvModel StageModel.
Open Scope Z_scope.

Definition primes : list Z := [7; 11; 13; 17; 19; 23; 29; 31; 37; 41; 43].
(** A sample as a 32 bit integer: integers as they are, floating-point numbers
    rounded and kept within the range, NaN as the least integer. *)
Definition sample (t : dtype) (v : num) : Z :=
  match v with
  | NaN => -2147483648
  | Num q =>
    if is_float t then
      let x := (q + (1 # 2))%Q in
      if Qltb x (-2147483647) then -2147483647 else if Qltb 2147483647 x then 2147483647 else Qfloor x
    else Qfloor q
  end.
(** The checksum so far and the index of the next prime; % of C keeps the sign. *)
Definition add_sample (st : Z * nat) (v : Z) : Z * nat :=
  let '(c, i) := st in
  (Z.land (c + Z.rem v (nth i primes 7)) 65535, if (10 <? S i)%nat then 0%nat else S i).
Definition band_checksum (t : dtype) (g : grid num) : Z :=
  fst (fold_left add_sample (map (sample t) (flat_map (fun r => map (g_at g r) (zrange (g_cols g))) (zrange (g_rows g)))) (0, 0%nat)).
(** Lines 389-393 on the file of a tile. *)
Definition has_data_of (v : file) : bool := 0 <? band_checksum (m_type (r_geo v)) (band1 v).
