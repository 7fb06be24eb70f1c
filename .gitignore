*.vo
*.vok
*.vos
*.glob
*.aux
.Makefile.d
.coqdeps.d
Makefile.conf
.*.cache
rocq/Makefile
rocq/.Makefile.d
