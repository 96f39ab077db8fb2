*.vo
*.vok
*.vos
*.glob
*.aux
.*.aux
*.cache
.Makefile.d
.lia.cache
.nia.cache
rocq/Makefile
rocq/Makefile.conf
