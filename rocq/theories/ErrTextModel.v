(** The texts of errors: the Debug and Display implementations of the error types and the conversions between them.  Texts are
    bytes. *)
From Verif Require Import Base Num IoModel PlyModel StlModel ScanModel ScannerModel ByteModel.

(** The Debug text of the types of ply files, derived at src/io/ply/types.rs:33 and printed at src/io/ply/types.rs:61-65. *)
Definition ptype_text (t : PType) : bytes :=
  str match t with
      | PChar => "Char" | PUChar => "UChar" | PShort => "Short" | PUShort => "UShort"
      | PInt => "Int" | PUInt => "UInt" | PFloat => "Float" | PDouble => "Double"
      end.
(** Models fmt of PlyError, src/io/ply/types.rs:312-350; [word] is the text InvalidType carries.  Without
    LoadVertexIndexDefinitionNotFound, which nothing creates. *)
Definition ply_text (word : bytes) (e : PlyError) : bytes :=
  match e with
  | LoadStartNotFound => str "Start of .ply header not found"
  | LoadFormatNotFound => str "Format of .ply missing or not supported"
  | LoadHeaderInvalid => str "Header of .ply seems to be invalid"
  | LoadVertexCountIncorrect => str "Vertex count of .ply not found"
  | ColorArrayIncorrectLength => str "The provided color array has an incorrect length"
  | VertexElement => str "Invalid vertex element"
  | FaceElement => str "Invalid face element"
  | InvalidType => str "Invalid type in header '" ++ word ++ str "'"
  | InvalidVertexType t => str "Invalid vertex type in header " ++ ptype_text t
  | InvalidFaceType t => str "Invalid face type in header " ++ ptype_text t
  | PlyAccessFile => str "Unable to access file"
  | PlyInvalidMeshIndices => str "File contains invalid mesh indices"
  | InvalidProperty => str "Invalid property"
  | InvalidVertex => str "Invalid vertex definition"
  | InvalidVertexDimensionDefinition => str "Invalid order / definition of vertex dimension order"
  | PropertyLineLocation => str "Found property line at unexpected location"
  | FaceStructure => str "Invalid face structure, only supporting 3 vertices per face"
  end.
(** Models fmt of StlError, src/io/stl.rs:671-691. *)
Definition stl_text (e : StlError) : bytes :=
  str match e with
      | LoadFileEndReached => "Unexpected reach of .stl file end"
      | StlAccessFile => "Unable to access file"
      | StlBinaryData => "Binary data seems to be invalid"
      | InvalidFaceCount => "Containing an invalid face count"
      | Facet => "Unable to parse facet"
      | EndFacet => "Unable to parse endfacet"
      | StlVertex => "Unable to parse vertex"
      | Loop => "Unable to parse loop"
      | EndLoop => "Unable to parse endloop"
      end.
(** Models fmt of PtxError, src/io/ptx.rs:275-292. *)
Definition ptx_text (e : PtxError) : bytes :=
  str match e with
      | PtxLoadFileEndReached => "Unexpected reach of .ptx file end"
      | PtxAccessFile => "Unable to access file"
      | PtxColumns => "Columns could not be parsed"
      | PtxRows => "Rows could not be parsed"
      | PtxMatrix => "Transformation matrix could not be parsed"
      | PtxPoint => "Point could not be parsed"
      end.
(** Models fmt of XyError and XyzError, src/io/xy.rs:177-191 and src/io/xyz.rs:192-206. *)
Definition xy_text (e : XyError) : bytes :=
  str match e with
      | XyVertex => "Unable to parse vertex"
      | XyAccessFile => "Unable to access file"
      | EstimateDelimiter => "Unable to estimate delimiter"
      end.
(** Models fmt of ObjError, src/io/obj.rs:240-255. *)
Definition obj_text (e : ObjError) : bytes :=
  str match e with
      | ObjAccessFile => "Unable to access file"
      | ObjFace => "Unable to parse face"
      | ObjVertex => "Unable to parse vertex"
      | ObjInvalidMeshIndices => "File contains invalid mesh indices"
      end.
(** Models fmt of OffError, src/io/off.rs:367-385. *)
Definition off_text (e : OffError) : bytes :=
  str match e with
      | OffAccessFile => "Unable to access file"
      | OffVertexCount => "Unable to parse vertex count"
      | OffFaceCount => "Unable to parse face count"
      | OffVertex => "Unable to parse vertex"
      | OffFace => "Unable to parse face"
      | OffFaceVertexCount => "Unable to parse vertex count of face"
      | OffInvalidMeshIndices => "File contains invalid mesh indices"
      end.
(** Models fmt of PtsError, src/io/pts.rs:209-223. *)
Definition pts_text (e : PtsError) : bytes :=
  str match e with
      | PtsAccessFile => "Unable to access file"
      | PtsVertexCount => "Unable to parse vertex count"
      | PtsVertex => "Unable to parse vertex"
      end.
(** Models fmt of GcodeError, src/io/gcode.rs:271-284. *)
Definition gcode_text (e : GcodeError) : bytes :=
  str match e with GcodeCommand => "Unable to parse command" | GcodeAccessFile => "Unable to access file" end.
(** Models fmt of PslError, src/io/psl.rs:269-281. *)
Definition psl_text (e : PslError) : bytes := str match e with PslAccessFile => "Unable to access file" end.
(** Models fmt of LasError, src/io/las/types.rs:157-173. *)
Definition las_text (e : LasError) : bytes :=
  str match e with
      | LasAccessFile => "Unable to access file"
      | LasBinaryData => "Unable to parse binary data"
      | LasUnknownPointFormat => "Unknown point format"
      | LasUnsupportedVersion => "Unsupported version"
      | LasHeader => "Could not parse header"
      end.
(** Models fmt of ErrorKind, the variants without payload, src/result.rs:74-105. *)
Definition kind_text (e : ErrorKind) : bytes :=
  str match e with
      | MinMaxSwapped => "Passed min/max values are swapped (min > max)"
      | MinMaxEqual => "Passed min/max values are equal"
      | TooFewPoints => "Container had too few points for the operation"
      | BoundingBoxMissing => "Bounding box is missing for the operation"
      | NormalizeVecWithoutLength => "Can't normalize a vector of length 0"
      | IOError => "Can't read or write a file"
      | ParseError => "Can't parse data"
      | IndexOutOfBounds => "Tried to access an out of bounds index"
      | IncorrectFaceID => "Used an incorrect face id"
      | IncorrectVertexID => "Used an incorrect vertex id"
      | FaceIDsNotUnique => "Ids of face aren't unique"
      | IncorrectEdgeID => "Used an incorrect edge id"
      | IncorrectVoxelID => "Used an incorrect voxel id"
      | IncorrectUnitID => "Used an incorrect unit id"
      | IncorrectSegmentID => "Used an incorrect segment id"
      | IncorrectDimension => "Trying to access an incorrect dimension"
      | DimensionsDontMatch => "Trying to mix types with different dimensions"
      | NumberConversionError => "Failed converting one number type to another"
      | NumberInWrongRange => "Passed number is within the wrong range"
      | ComparisionFailed => "Comparision between two values failed"
      | CantCalculateAngleIfZeroLength => "Can't calculate the angle between 0 vectors"
      | ClusterTooBig => "Clustering size is too big for given mesh"
      | TriFace3DNotSpanningVolume => "TriFace3D must be constructed from points spanning a volume"
      end.
(** Models ErrorKind with the variants with payload, src/result.rs:37-70, and the conversions of the errors of the formats into
    it, src/result.rs:143-183. *)
Inductive any_error : Type :=
  AKind (e : ErrorKind) | APly (word : bytes) (e : PlyError) | AStl (e : StlError) | APtx (e : PtxError) | AXy (e : XyError) | AXyz (e : XyError)
  | AObj (e : ObjError) | AOff (e : OffError) | APsl (e : PslError) | AGcode (e : GcodeError).
(** Models fmt of ErrorKind, src/result.rs:74-118. *)
Definition any_text (e : any_error) : bytes :=
  match e with
  | AKind e => kind_text e
  | APly w e => ply_text w e
  | AStl e => stl_text e
  | APtx e => ptx_text e
  | AXy e | AXyz e => xy_text e
  | AObj e => obj_text e
  | AOff e => off_text e
  | APsl e => psl_text e
  | AGcode e => gcode_text e
  end.
(** Models fmt of WithLineInfo, src/io/types.rs:93-104, for the Display text [show] of the error. *)
Definition line_text {E} (show : E -> bytes) (w : with_line E) : bytes :=
  match w with
  | WNone e => show e
  | WIndex i e => str "Line #" ++ print_usize i ++ str ": '" ++ show e ++ str "'"
  | WLine i l e => str "Line #" ++ print_usize i ++ str ": '" ++ show e ++ str "' '" ++ l ++ str "'"
  end.
(** Models the conversions of a WithLineInfo, src/io/stl.rs:699-722 and src/io/ptx.rs:306-319, for the conversion [f] of the
    error itself. *)
Definition line_from {E F} (f : E -> F) (w : with_line E) : with_line F :=
  match w with WNone e => WNone (f e) | WIndex i e => WIndex i (f e) | WLine i l e => WLine i l (f e) end.
