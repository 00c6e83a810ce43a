(** * Cutting and resampling rasters (all_multipliers.py:331-365 and 586-670).

    gdal.ReprojectImage with nearest-neighbour resampling (its default, and the
    method of all callers) is modelled as: each pixel of the destination gets the
    value of the source pixel that contains its centre, converted to the type of
    the destination; where there is none, or the source pixel holds the source's
    no-data value, the destination keeps its initial value 0.  Coordinates are
    exact.  [tr a b] transforms coordinates from projection [a] to [b].  The
    values are finite, and writing the file does not fail. *)
From Coq Require Import Qabs.
From Verif Require Import Base PyStr Rounding TileModel ClipModel.
Open Scope Z_scope.

Inductive dtype := UInt8 | Int16 | UInt16 | Int32 | UInt32 | Float32 | Float64.

(** An open dataset: type of its band, projection, geotransform without rotation
    (origin and signed pixel size), no-data value, cells. *)
Record image := Image { im_type : dtype; im_proj : str; im_x : Q; im_dx : Q; im_y : Q; im_dy : Q; im_nodata : option Q; im_cells : grid Q }.

(** Rounding to 24 bits: conversion to single precision (no overflow). *)
Definition rnd24_pos (x : Q) : Q := let s := p2 (qexp x - 23) in (inject_Z (np_around (x / s)) * s)%Q.
Definition rnd24 (x : Q) : Q :=
  match Qnum x with Z0 => 0%Q | Zpos _ => rnd24_pos x | Zneg _ => (- rnd24_pos (- x))%Q end.

(** Lines 343-346 and 624-627. *)
Definition dst_type (t : dtype) : dtype := match t with Int32 => Int32 | _ => Float32 end.
(** Conversion of a value to the type of the destination. *)
Definition store (t : dtype) (v : Q) : Q := match t with Int32 => v | _ => rnd24 v end.

(** Lines 357 and 655-662: a destination with the given projection, geotransform
    and size, filled from [src]. *)
Definition warp (tr : str -> str -> Q * Q -> Q * Q) (src : image) (proj : str) (x dx y dy : Q) (high wide : Z) : image :=
  let t := dst_type (im_type src) in
  Image t proj x dx y dy None
    (Grid high wide (fun r c =>
       let '(px, py) := tr proj (im_proj src) (x + (inject_Z c + (1#2)) * dx, y + (inject_Z r + (1#2)) * dy)%Q in
       let j := Qfloor ((px - im_x src) / im_dx src) in
       let i := Qfloor ((py - im_y src) / im_dy src) in
       if (0 <=? i) && (i <? g_rows (im_cells src)) && (0 <=? j) && (j <? g_cols (im_cells src)) then
         let v := g_at (im_cells src) i j in
         match im_nodata src with
         | Some n => if Qeq_bool v n then 0%Q else store t v
         | None => store t v
         end
       else 0%Q)).

(** A path or an open dataset; [fs p] is [None] if there is no file [p], and
    [Some None] if GDAL cannot open it.  Lines 609-619 and 632-642. *)
Inductive source := Path (p : str) | Opened (r : image).
Definition open_source (fs : str -> option (option image)) (s : source) : res image :=
  match s with
  | Opened r => Ok r
  | Path p => match fs p with Some (Some r) => Ok r | _ => Err OSError end
  end.

(** Lines 586-670.  [wkt e] is the projection with EPSG code [e]; the code 0
    counts as none (line 644). *)
Definition reproject_dataset (tr : str -> str -> Q * Q -> Q * Q) (wkt : Z -> str) (fs : str -> option (option image))
    (src mtch : source) (epsg : option Z) : res image :=
  let* s := open_source fs src in
  let* m := open_source fs mtch in
  let proj := match epsg with Some e => if e =? 0 then im_proj m else wkt e | None => im_proj m end in
  Ok (warp tr s proj (im_x m) (im_dx m) (im_y m) (im_dy m) (g_rows (im_cells m)) (g_cols (im_cells m))).

(** Lines 298-300 and 331-365. *)
Definition clip_dataset (fl : Q -> Q) (tr : str -> str -> Q * Q -> Q * Q) (dem : image) (ext : extent) : image :=
  let pw := im_dx dem in
  let ph := (- im_dy dem)%Q in
  let '(e0, e1, e2, e3) := ext in
  let '(wide, high) := clip_dataset_size fl ext pw ph in
  warp tr dem (im_proj dem) e0 pw e1 (- ph)%Q high wide.
