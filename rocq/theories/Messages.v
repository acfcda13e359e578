(** Model of what errors say of themselves: error.rs (Display). *)
From Coq Require Import String DecimalString HexadecimalString.
From Verif Require Import Base.
Open Scope string_scope.

(** [{}] of an unsigned number, and [{:#x}]. *)
Definition decimal (n : N) : string := DecimalString.NilEmpty.string_of_uint (N.to_uint n).
Definition hexadecimal (n : N) : string := "0x" ++ HexadecimalString.NilEmpty.string_of_uint (N.to_hex_uint n).

(** error.rs 19-26 *)
Definition case_text (c : zip64_case) : string :=
  match c with
  | TooManyFiles => "More than 65536 files in archive"
  | LargeFile => "File is larger than 4 GiB"
  end.

(** The strings handed to [FeatureNotSupported]: base/read/mod.rs 74, 224-226, 229. *)
Definition feature_text (f : feature) : string :=
  match f with
  | FSplit => "Spanned/split files"
  | FEncryption => "encryption"
  | FStreamStored => "stream reading entries with data descriptors & Stored compression mode"
  end.

(** error.rs 30-72. What an I/O error says is up to the standard library and whoever made it. *)
Definition error_text (io_text : io_error -> string) (e : zip_error) : string :=
  match e with
  | FeatureNotSupported f => "feature not supported: '" ++ feature_text f ++ "'"
  | CompressionNotSupported n => "compression not supported: " ++ decimal n
  | AttributeCompatibilityNotSupported n => "host attribute compatibility not supported: " ++ decimal n
  | TargetZip64NotSupported => "attempted to read a ZIP64 file whilst on a 32-bit target"
  | Zip64Needed c => "attempted to write a ZIP file with force_no_zip64 when ZIP64 is needed: " ++ case_text c
  | EOFNotReached => "end of file has not been reached"
  | ExtraFieldTooLarge => "extra fields exceeded maximum size"
  | CommentTooLarge => "comment exceeded maximum size"
  | FileNameTooLarge => "filename exceeded maximum size"
  | StringNotUtf8 => "attempted to convert non-UTF8 bytes to a string/str"
  | UnableToLocateEOCDR => "unable to locate the end of central directory record"
  | InvalidExtraFieldHeader a b =>
      "extra field size was indicated to be " ++ decimal a ++ " but only " ++ decimal b ++ " bytes remain"
  | Zip64ExtendedFieldIncomplete => "zip64 extended information field was incomplete"
  | UpstreamReadError i => "an upstream reader returned an error: " ++ io_text i
  | CRC32CheckError => "a computed CRC32 value did not match the expected value"
  | EntryIndexOutOfBounds => "entry index was out of bounds"
  | UnexpectedHeaderError a b =>
      "Encountered an unexpected header (actual: " ++ hexadecimal a ++ ", expected: " ++ hexadecimal b ++ ")."
  | InfoZipUnicodeCommentFieldIncomplete => "Info-ZIP Unicode Comment Extra Field was incomplete"
  | InfoZipUnicodePathFieldIncomplete => "Info-ZIP Unicode Path Extra Field was incomplete"
  end.
