(* Vocabulary for what the two ends of a connection have negotiated. *)
From Verif Require Import Base.Prelude Model.PermessageDeflate Spec.Deflate.

(* The extension was just created, with settings that zlib accepts for compression. *)
Definition ready {zl} (p : pmd zl) : Prop :=
  exists remote_nct local_nct remote_bits local_bits settings,
    pmd_init remote_nct local_nct remote_bits local_bits settings = Ok p /\ can_compress zl local_bits settings.

(* One end has extensions exts and the other one exts': either none, or permessage-deflate with the same settings. *)
Definition compress_alike {zl} (exts exts' : list (pmd zl)) : Prop :=
  (exts = [] /\ exts' = []) \/
  exists p q, exts = [p] /\ exts' = [q] /\ ready p /\ ready q /\ mirrored p q.
