"""Transcribes the arms of __expand_tuple! and __expand_tuple_arm! (src/tagged_box_macro/meta_macros.rs)
into rocq/theories/Arms.v. Run once; the output is committed and checked by reading."""
import re, os
s = open('/repo/src/tagged_box_macro/meta_macros.rs').read().split('\n')
def arms(lo, hi, head):
    out, i = [], lo
    while i < hi:
        if re.match(head, s[i]):
            j = i + 1
            while j < hi and not re.match(head, s[j]): j += 1
            out.append((i + 1, s[i], ' '.join(s[i+1:j])))
            i = j
        else: i += 1
    return out
o = []
w = o.append
w('''(** The hand-expanded arms of [__expand_tuple!] and [__expand_tuple_arm!] in
    [/repo/src/tagged_box_macro/meta_macros.rs], one table entry per macro arm, in source order
    (transcribed by [tools/gen_arms.py]). *)
From Coq Require Import NArith String Bool List.
Import ListNotations.
Local Open Scope string_scope.

(** [__expand_tuple!($variant, $expr, $a:ty, ..)], [/repo/src/tagged_box_macro/meta_macros.rs:83-319]:
    number of types in the arm's pattern, and the indices [tuple.i] handed to [$variant(..)] in
    order. The arm for no type (lines 85-90) does not evaluate [$expr]. The last arm (316-318) is a
    [compile_error!]. *)
Definition expand_tuple_arms : list (nat * list nat) := [''')
E = []
for ln, h, b in arms(83, 319, r'\s*\(\$variant:path, \$expr:expr'):
    if 'compile_error' in b or ln == 85: continue
    n = len(re.findall(r'\$(\w+):ty', h))
    idx = re.findall(r'tuple\.(\d+)', b)
    E.append('  (%d, [%s])%%nat' % (n, '; '.join(idx)) + '@@' + ' (* line %d *)' % ln)
w('\n'.join(e.replace('@@', ';' if k < len(E)-1 else '') for k, e in enumerate(E)))
w('].\n')
w('''(** [__expand_tuple_arm!($tagged, $enum, $counter, $variant, $a:ty, .. [..] [..] $ty, ..)],
    [/repo/src/tagged_box_macro/meta_macros.rs:445-915]: number of types in the arm's pattern, the
    names bound by the pattern [$enum::$variant(..)], the arguments of the constructor
    [$variant(..)]. The arms for no type (446-463) build a dangling box. The last arm (912-914) is
    meant as a [compile_error!]; its pattern lacks the trailing types, so longer lists match no arm,
    which is a compile-time error as well. *)
Definition expand_tuple_arm_arms : list (nat * (list string * list string)) := [''')
E = []
for ln, h, b in arms(444, 915, r'\s*\(\$tagged:expr, \$enum:ident, \$counter:ident, \$variant:ident'):
    if 'compile_error' in b or ln == 446: continue
    pre = h.split('[$($finished')[0]
    n = len(re.findall(r'\$(\w+):ty', pre))
    pat = [x for x in re.search(r'\$enum::\$variant\(([^)]*)\) =>', b).group(1).split(',') if x]
    m = re.search(r'\(\$variant\(([^)]*)\), (.*?)\)', b)
    ctor = [x for x in m.group(1).split(',') if x] if m else []
    q = lambda l: '[' + '; '.join('"%s"' % x for x in l) + ']'
    E.append('  (%d%%nat, (%s,\n    %s))' % (n, q(pat), q(ctor)) + '@@' + ' (* line %d *)' % ln)
w('\n'.join(e.replace('@@', ';' if k < len(E)-1 else '') for k, e in enumerate(E)))
w('].')
open(os.path.join(os.path.dirname(os.path.abspath(__file__)), '../rocq/theories/Arms.v'), 'w').write('\n'.join(o) + '\n')
