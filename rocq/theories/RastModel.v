(** * Rasterising the land-cover polygons (pre_process.py:35-82, rasterize.py).

    GDAL is a parameter through [covers], whether a point lies in a geometry,
    [tr a b], the transformation of coordinates from projection [a] to [b], and
    [atof], the number a string begins with.  gdal.RasterizeLayer without
    options but the attribute is modelled as: the features are burnt in their
    order, each in the pixels whose centre it covers (GDAL transforms the
    vertices to the raster; here the centre is transformed to the layer).  It
    raises nothing when the attribute is missing.  Writing files does not fail;
    logging is left out. *)
From Coq Require Import Ascii String.
From Verif Require Import Base PyStr UtilModel PreModel ReprModel.
Open Scope Z_scope.

Section Rast.
  Context {G : Type}.
  Variable covers : G -> Q * Q -> bool.
  Variable tr : str -> str -> Q * Q -> Q * Q.
  Variable atof : str -> Q.

  (** A vector file: projection if it has one, names of its fields, features. *)
  Record layer := Layer { l_proj : option str; l_fields : list str; l_features : list (attrs * option G) }.

  (** Conversion of a number to 16 bits without sign: rounded and clamped. *)
  Definition to_u16 (q : Q) : Q := inject_Z (Z.min 65535 (Z.max 0 (Qfloor (q + (1#2))))).
  (** The value burnt for a feature: OGR reads a missing value as 0. *)
  Definition burnt (a : attrs) : Q :=
    to_u16 (match aget a (lit "CAT") with
            | Ok (VInt z) => inject_Z z
            | Ok (VStr s) => atof s
            | _ => 0%Q
            end).
  Definition burn (l : layer) (p : Q * Q) : Q :=
    if existsb (str_eqb (lit "CAT")) (l_fields l) then
      fold_left (fun v (f : attrs * option G) =>
        match snd f with
        | Some g => if covers g p then burnt (fst f) else v
        | None => v
        end) (l_features l) 0%Q
    else 0%Q.

  (** rasterize, pre_process.py:35-82; [vec] and [ras] are the files there are
      (ogr.Open and gdal.Open give None for others).  A layer without projection
      is taken to have the coordinates of the raster. *)
  Definition rasterize (vec : str -> option layer) (ras : str -> option image) (input input_topo : str) : res image :=
    match vec input with
    | None => Err AttributeError
    | Some l =>
        match ras input_topo with
        | None => Err AttributeError
        | Some t =>
            Ok (Image UInt16 (im_proj t) (im_x t) (im_dx t) (im_y t) (im_dy t) (Some 0%Q)
                 (Grid (g_rows (im_cells t)) (g_cols (im_cells t)) (fun r c =>
                    let p := (im_x t + (inject_Z c + (1#2)) * im_dx t, im_y t + (inject_Z r + (1#2)) * im_dy t)%Q in
                    burn l (match l_proj l with Some q => tr (im_proj t) q p | None => p end))))
        end
    end.

  (** rasterize.py:29-54: the raster files afterwards.  [attribute] and the
      features read are not used.  [cut i c] is gdal.Warp of raster [i] to the
      cutline [c] with no-data 0, None if it fails (which raises nothing).
      shp_file.read raises fiona's DriverError, a ValueError, if there is no such file. *)
  Definition put (ras : str -> option image) (p : str) (i : image) : str -> option image :=
    fun q => if str_eqb q p then Some i else ras q.
  Definition cut_to (cut : image -> str -> option image) (ras : str -> option image) (dst src mask : str) : str -> option image :=
    match ras src with
    | Some i => match cut i mask with Some o => put ras dst o | None => ras end
    | None => ras
    end.
  Definition script (cut : image -> str -> option image) (vec : str -> option layer) (ras : str -> option image)
      (input : str) (attribute : str) (topography : str) (crop : option str) : res (str -> option image) :=
    match vec input with
    | None => Err ValueError
    | Some _ =>
        let root := splitext_root topography in
        let '(topofile, ras1) :=
          match crop with
          | Some m => let f := root ++ lit "_crop" ++ skipn (List.length root) topography in (f, cut_to cut ras f topography m)
          | None => (topography, ras)
          end in
        let* o := rasterize vec ras1 input topofile in
        let ras2 := put ras1 (lit "test.tiff") o in
        Ok (match crop with
            | Some m => cut_to cut ras2 (lit "test_crop.tiff") (lit "test.tiff") m
            | None => ras2
            end)
    end.
End Rast.
Arguments layer : clear implicits.
