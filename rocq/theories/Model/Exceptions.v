(* src/websockets/exceptions.py 71-110: what is displayed about a connection that was closed. *)
From Verif Require Import Base.Prelude.
Local Open Scope N_scope.

(* 72-89: CLOSE_CODES.get(code, "unknown") *)
Definition close_codes (code : Z) : str :=
  match code with
  | 1000%Z => s "OK"
  | 1001%Z => s "going away"
  | 1002%Z => s "protocol error"
  | 1003%Z => s "unsupported type"
  | 1005%Z => s "no status code [internal]"
  | 1006%Z => s "connection closed abnormally [internal]"
  | 1007%Z => s "invalid data"
  | 1008%Z => s "policy violation"
  | 1009%Z => s "message too big"
  | 1010%Z => s "extension required"
  | 1011%Z => s "unexpected error"
  | 1012%Z => s "service restart"
  | 1013%Z => s "try again later"
  | 1014%Z => s "bad gateway"
  | 1015%Z => s "TLS failure [internal]"
  | _ => s "unknown"
  end.

(* 92-110: format_close *)
Definition format_close (code : Z) (reason : str) : str :=
  let explanation :=
    if (3000 <=? code)%Z && (code <? 4000)%Z then s "registered"
    else if (4000 <=? code)%Z && (code <? 5000)%Z then s "private use"
    else close_codes code in
  s "code = " ++ str_of_Z code ++ s " (" ++ explanation ++ s "), " ++
  match reason with
  | [] => s "no reason"
  | _ => s "reason = " ++ reason
  end.
