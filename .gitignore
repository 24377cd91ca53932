*.vo
*.vok
*.vos
*.glob
*.aux
.*.aux
.lia.cache
.nia.cache
.Makefile.d
.coqdeps.d
rocq/Makefile
rocq/Makefile.conf
.nra.cache
.lia.cache
.nia.cache
rocq/.*.cache
