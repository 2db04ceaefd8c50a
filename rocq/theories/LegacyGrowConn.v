(** citrine/connection/connection.py: a CitrineConnection whose container is expanded in between *)
From Verif Require Import Base Value Dict Txn Legacy LegacyConn LegacyGrow.
Open Scope Z_scope.
Open Scope list_scope.
Set Implicit Arguments.

(** a call of the connection (LegacyConn.v), or expand_containers *)
Inductive kop := KCall (cmd : lcmd) | KExpand (num : Z).
(** connection.py:61: [self.container.expand_size(self.num_containers() + num)] on the root; 50-51 [num_containers] *)
Definition expand_root (num : Z) (r : lroot) : lroot * res unit :=
  match r_container r with
  | None => (r, Err AttributeError)
  | Some d => let (d1, x) := expand_size (containers_size d + num) d in (mkRoot (Some d1) (r_meta r), x)
  end.
(** connection.py:53-61 [expand_containers]: [with self:] around it; the other calls with a CitrineTransactionManager *)
Definition k_step (b : nat -> option exn) (o : kop) (c : conn lroot) : conn lroot * res lres :=
  match o with
  | KCall cmd => lexec Explicit b cmd c
  | KExpand num => let (c1, x) := in_block b (expand_root num) c in (c1, rbind x (fun _ => Ok (LRVal VNone)))
  end.
Fixpoint k_run (b : nat -> option exn) (ops : list kop) (c : conn lroot) : conn lroot * list (res lres) :=
  match ops with
  | [] => (c, [])
  | o :: ops' => let (c1, r) := k_step b o c in let (c2, rs) := k_run b ops' c1 in (c2, r :: rs)
  end.
