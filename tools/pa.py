"""Appends Print Assumptions for every theorem of rocq/theories/<file>.v"""
import re, sys
for n in sys.argv[1:]:
    p = '/verif/rocq/theories/%s.v' % n
    s = open(p).read()
    s = re.sub(r'\n+(Print Assumptions \w+\.\n*)+$', '\n', s)
    t = re.findall(r'^Theorem (\w+)', s, re.M)
    s = s.rstrip('\n') + '\n\n' + ''.join('Print Assumptions %s.\n' % x for x in t)
    open(p, 'w').write(s)
