(** * FileIO: model of readFromFile / writeToFile, src/Utilities.cpp:312-395.

    A file is the list of tokens a whitespace-skipping scanf sees: numbers or something that is not a number. *)
From Verif Require Import Base Arith Codes.

(** One item of a text file as [fscanf] sees it: a number or something else. No LCQPow code. *)
Inductive token (X : Type) : Type := TNum (v : X) | TBad.
Arguments TNum {X} v.
Arguments TBad {X}.

(** Outcome of [fscanf(f, "%lf\n", &d)] resp. "%d\n": 1 (value stored), 0 (matching failure), EOF. *)
Inductive scan (X : Type) : Type := ScanOk (v : X) (rest : list (token X)) | ScanZero | ScanEOF.
Arguments ScanOk {X} v rest.
Arguments ScanZero {X}.
Arguments ScanEOF {X}.
(** [fscanf( datafile, "%lf", ... )] as used in src/Utilities.cpp (readFromFile). *)
Definition fscanf {X} (f : list (token X)) : scan X :=
  match f with
  | [] => ScanEOF
  | TNum v :: rest => ScanOk v rest
  | TBad :: _ => ScanZero
  end.

(** The reading loop common to both overloads, src/Utilities.cpp:325-332 and 353-360: only the return value 0 is treated
    as an error, EOF leaves the cell as it is. *)
Definition read_loop {X} (data : arr X) (n : Z) (f : list (token X)) : res (ReturnValue * arr X) :=
  let! o :=
    forb 0 n (fun i '(data, f) =>
      match fscanf f with
      | ScanOk v rest => let! data := wr data i v in Ok (inl (data, rest))
      | ScanZero => Ok (inr data)
      | ScanEOF => Ok (inl (data, f))
      end) (data, f) in
  match o with
  | inl (data, _) => Ok (SUCCESSFUL_RETURN, data)
  | inr data => Ok (UNABLE_TO_READ_FILE, data)
  end.

(** [readFromFile] (int overload), src/Utilities.cpp:312-338: [fclose(NULL)] if the file cannot be opened *)
Definition readFromFile_int (data : arr Z) (n : Z) (file : option (list (token Z))) : res (ReturnValue * arr Z) :=
  match file with
  | None => UB BadCall
  | Some f => read_loop data n f
  end.

(** [readFromFile] (double overload), src/Utilities.cpp:341-366 *)
Definition readFromFile {T} (data : arr T) (n : Z) (file : option (list (token T))) : res (ReturnValue * arr T) :=
  match file with
  | None => Ok (UNABLE_TO_READ_FILE, data)
  | Some f => read_loop data n f
  end.

(** [writeToFile], src/Utilities.cpp:369-395; [fmt] is the value a number has after being printed with "%f" (six decimal
    digits).  [openable = false]: fopen fails and [fclose(NULL)] is called. *)
Definition writeToFile {T} (fmt : T -> token T) (openable : bool) (data : arr T) (n : Z)
    : res (ReturnValue * list (token T)) :=
  if openable then
    let! f := for_ 0 n (fun i f => let! v := rd data i in Ok (f ++ [fmt v])) [] in
    Ok (SUCCESSFUL_RETURN, f)
  else UB BadCall.
