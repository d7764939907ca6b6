*.vo
*.vok
*.vos
*.glob
*.aux
.*.aux
.lia.cache
.nia.cache
.coqdeps.d
.Makefile.d
Makefile
Makefile.conf
rocq/Makefile
rocq/Makefile.conf
__pycache__/
.nra.cache
