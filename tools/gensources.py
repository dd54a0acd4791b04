#!/usr/bin/env python3
"""Writes rocq/theories/Sources.v: the C# sources and templates of /repo, verbatim."""
import os
R = '/repo/'
files = [
 ('tpl_opaque', 'client/codegen_wrapped/opaque_template.cs.tpl'),
 ('tpl_keyframe', 'client/codegen_wrapped/keyframe.cs.tpl'),
 ('tpl_state', 'client/codegen_wrapped/state.cs.tpl'),
 ('tpl_state_handle', 'client/codegen_wrapped/state_handle.cs.tpl'),
 ('tpl_state_id', 'client/codegen_wrapped/state_id.cs.tpl'),
 ('tpl_rbox', 'crates/rsharp/codegen/rbox.cs.tpl'),
 ('cs_baseline', 'client/cs/src/Baseline.cs'),
 ('cs_state_accessors', 'client/cs/src/StateAccessors.cs'),
 ('cs_state_bindings', 'client/cs/src/StateBindings.cs'),
 ('cs_contract', 'client/cs/src/Contract.cs'),
 ('cs_object_handle', 'client/cs/src/ObjectHandle.cs'),
 ('cs_rvec_keyframe', 'client/cs/src/RVec_Keyframe.cs'),
 ('cs_example_contract', 'client/contract_example/cs/src/ExampleContract.cs'),
 ('cs_ball_contract', 'demos/unity_states/cs/src/BallContract.cs'),
 ('cs_ball_states', 'demos/unity_states/cs/src/BallStates.cs'),
 ('cs_rstring', 'crates/rsharp/cs/src/RString.cs'),
]
out = ['''(** The templates of the two code generators and the hand-written C# files that call
    native functions, verbatim (written by tools/gensources.py; a double quote is
    doubled, as Coq wants).  No interpretation is added here. *)
From Verif Require Export Mangle.
Import Coq.Strings.String.StringSyntax.
Open Scope string_scope.
''']
for n, f in files:
    t = open(R + f, encoding='utf-8').read()
    t.encode('ascii')
    lines = t.count('\n') + (0 if t.endswith('\n') or not t else 1)
    out.append('(** %s:1-%d *)\nDefinition %s : str := lit "%s".\n' % (f, max(lines,1), n, t.replace('"', '""')))
open('/verif/rocq/theories/Sources.v', 'w').write('\n'.join(out))
