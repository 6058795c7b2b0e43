(** Model of the diagnostic log: src/library/base/logger.cpp. Library code modelled as
    returning normally while logging (LOG_ERROR, LOG_WARN, LOG_DEBUG) relies on what is
    proved about this file (C55). Not modelled: the expansion of the arguments by
    vfprintf. *)
From Verif Require Import Base StringUtils.

(** #define MAX_PATH 255 (logger.cpp 12; not the MAX_PATH of datatypes.h) *)
Definition LOG_MAX_PATH : nat := 255.

(** strncpy(dst, src, n), C standard: at most [n] characters of the string, then NULs
    up to [n]; [dst] has [size] bytes. *)
Definition strncpy (size : nat) (src : bytes) (n : nat) : res bytes :=
  if size <? n then Undef UbWrite
  else let s := firstn n (cstr src) in Ok (s ++ repeat NUL (n - length s) ++ repeat NUL (size - n)).
(** strlen of an array *)
Definition strlen (a : bytes) : res nat :=
  if existsb (Ascii.eqb NUL) a then Ok (length (cstr a)) else Undef UbRead.
(** strncat(dst, src, n): at most [n] characters of [src] and then a NUL, after the
    string in [dst] *)
Definition strncat (dst src : bytes) (n : nat) : res bytes :=
  l <-- strlen dst ;;
  let s := firstn n (cstr src) in
  if length dst <? l + length s + 1 then Undef UbWrite
  else Ok (cstr dst ++ s ++ NUL :: skipn (l + length s + 1) dst).

(** getLogFname (logger.cpp 29-44, __unix__), called with an array of MAX_PATH bytes
    (logger.cpp 50). [tmpdir]: getenv("TMPDIR"). *)
Definition get_log_fname (tmpdir : option bytes) : res bytes :=
  let folder := match tmpdir with None => bs "/tmp" | Some f => f end in
  logpath <-- strncpy LOG_MAX_PATH folder LOG_MAX_PATH ;;
  l <-- strlen logpath ;;
  strncat logpath (bs "/open-license.log") (LOG_MAX_PATH - l).

(** timenow (logger.cpp 19-27): [now] is what strftime(buffer, 64, ...) stores; [None]:
    it does not fit, and the buffer is left undefined. *)
Definition timenow (size : nat) (now : option bytes) : res bytes :=
  match now with
  | None => Undef UbUninit
  | Some s => if (size <? 64) || (63 <? length s) then Undef UbWrite else Ok (s ++ repeat NUL (size - length s))
  end.
(** strcat *)
Definition strcat (dst src : bytes) : res bytes := strncat dst src (length (cstr src)).

(** _log (logger.cpp 46-64). [file]: logFile, i.e. the path it was opened with. [opens]:
    does fopen succeed. Result: logFile, and what is printed to which file (the format
    handed to vfprintf). *)
Definition log_message (tmpdir : option bytes) (opens : bytes -> bool) (now : option bytes) (format : bytes)
    (file : option bytes) : res (option bytes * option (bytes * bytes)) :=
  file <-- match file with
           | Some p => Ok (Some p)
           | None => logpath <-- get_log_fname tmpdir ;;
                     l <-- strlen logpath ;;
                     let p := cstr logpath in
                     Ok (if opens p then Some p else None)
           end ;;
  match file with
  | None => Ok (None, None)
  | Some p =>
      buffer <-- timenow (length (cstr format) + 64) now ;;
      buffer <-- strcat buffer format ;;
      l <-- strlen buffer ;;
      Ok (Some p, Some (p, cstr buffer))
  end.
(** _shutdown_log (logger.cpp 66-71) *)
Definition shutdown_log (file : option bytes) : option bytes := None.

(** A history of calls. *)
Inductive log_op :=
| LogMessage (tmpdir : option bytes) (opens : bytes -> bool) (now : option bytes) (format : bytes)
| LogShutdown.
(** a sequence of calls of the two functions *)
Fixpoint log_run (ops : list log_op) (file : option bytes) : res (list (bytes * bytes)) :=
  match ops with
  | [] => Ok []
  | LogMessage tmpdir opens now format :: r =>
      '(file, line) <-- log_message tmpdir opens now format file ;;
      lines <-- log_run r file ;;
      Ok (match line with Some l => l :: lines | None => lines end)
  | LogShutdown :: r => log_run r (shutdown_log file)
  end.
